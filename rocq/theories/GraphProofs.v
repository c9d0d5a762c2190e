From Coq Require Import List NArith Arith Bool Lia Permutation.
From Coq Require Import ZifyBool ZifyNat ZifyN.
From Verif Require Import Base GraphModel GraphSpec.
Import ListNotations.
Open Scope N_scope.

(* ------------------------------------------------------------------------- *)
(** * Sets *)

Lemma in_existsb (x : N) l : existsb (N.eqb x) l = true <-> In x l.
Proof.
  rewrite existsb_exists. split.
  - intros (y & H & E). apply N.eqb_eq in E. now subst.
  - intros H. exists x. rewrite N.eqb_refl. auto.
Qed.

Lemma notin_existsb (x : N) l : existsb (N.eqb x) l = false <-> ~ In x l.
Proof.
  rewrite <- in_existsb. destruct (existsb (N.eqb x) l); split; intros; congruence.
Qed.

Lemma set_add_in x y l : In y (set_add x l) <-> y = x \/ In y l.
Proof.
  unfold set_add. destruct (existsb (N.eqb x) l) eqn:E.
  - apply in_existsb in E. split; auto. intros [->|]; auto.
  - rewrite in_app_iff. simpl. intuition.
Qed.

Lemma set_add_nodup x l : NoDup l -> NoDup (set_add x l).
Proof.
  unfold set_add. intros H. destruct (existsb (N.eqb x) l) eqn:E; auto.
  apply notin_existsb in E.
  apply NoDup_rev in H. rewrite <- (rev_involutive (l ++ [x])).
  apply NoDup_rev. rewrite rev_app_distr. simpl. constructor; auto.
  now rewrite <- in_rev.
Qed.

Lemma set_del_in x y l : In y (set_del x l) <-> y <> x /\ In y l.
Proof.
  unfold set_del. rewrite filter_In. split.
  - intros [H E]. split; auto. intros ->. rewrite N.eqb_refl in E. discriminate.
  - intros [H E]. split; auto. destruct (x =? y) eqn:F; auto. apply N.eqb_eq in F. congruence.
Qed.

Lemma set_del_nodup x l : NoDup l -> NoDup (set_del x l).
Proof. apply NoDup_filter. Qed.

Lemma set_del_length x l : NoDup l -> In x l -> length l = S (length (set_del x l)).
Proof.
  induction l as [|y l IH]; simpl; [tauto|]. intros H [->|I].
  - inversion H; subst. rewrite N.eqb_refl. cbn [negb]. f_equal.
    assert (E : set_del x l = l).
    2: { fold (set_del x l). now rewrite E. }
    unfold set_del. clear -H2. induction l; simpl; auto.
    destruct (x =? a) eqn:E.
    + apply N.eqb_eq in E. subst. simpl in H2. tauto.
    + simpl. rewrite IHl; auto. simpl in H2. tauto.
  - inversion H; subst. destruct (x =? y) eqn:E.
    + apply N.eqb_eq in E. subst. tauto.
    + cbn [negb length]. f_equal. apply IH; auto.
Qed.

(* ------------------------------------------------------------------------- *)
(** * Looking at graphs *)

Section Looking.
Context {D : Type}.
Implicit Types g : graph D.

Definition labels g : list N := map n_label g.
Definition outs g (a : N) : list N := match g_get a g with Some n => n_out n | None => [] end.
Definition ins g (a : N) : list N := match g_get a g with Some n => n_in n | None => [] end.

Lemma g_get_some a g n : g_get a g = Some n -> In n g /\ n_label n = a.
Proof.
  unfold g_get. intros H. apply find_some in H. destruct H as [H E].
  apply N.eqb_eq in E. auto.
Qed.

Lemma g_get_in a g : In a (labels g) <-> exists n, g_get a g = Some n.
Proof.
  unfold labels. split.
  - intros H. apply in_map_iff in H. destruct H as (n & <- & H).
    unfold g_get. destruct (find _ g) eqn:E; eauto.
    apply find_none with (x := n) in E; auto. rewrite N.eqb_refl in E. discriminate.
  - intros [n H]. apply g_get_some in H. destruct H as [H <-]. apply in_map; auto.
Qed.

Lemma g_get_update a b f g :
  (forall n, n_label (f n) = n_label n) ->
  g_get a (g_update b f g) =
  if a =? b then option_map f (g_get a g) else g_get a g.
Proof.
  intros F. unfold g_get, g_update. induction g as [|n g IH]; simpl.
  - destruct (a =? b); auto.
  - destruct (n_label n =? b) eqn:E.
    + rewrite F. destruct (n_label n =? a) eqn:E2.
      * apply N.eqb_eq in E, E2. assert (X : a =? b = true) by (apply N.eqb_eq; congruence).
        rewrite X. reflexivity.
      * apply IH.
    + destruct (n_label n =? a) eqn:E2.
      * apply N.eqb_eq in E2. subst a. rewrite E. auto.
      * apply IH.
Qed.

Lemma labels_update b f g :
  (forall n, n_label (f n) = n_label n) -> labels (g_update b f g) = labels g.
Proof.
  intros F. unfold labels, g_update. rewrite map_map. apply map_ext.
  intros n. destruct (n_label n =? b); auto.
Qed.

Record wf g : Prop := mkWf {
  wf_labels : NoDup (labels g);
  wf_nodup : forall a, NoDup (outs g a);
  wf_sym : forall a b, In b (outs g a) <-> In a (ins g b) }.

Lemma outs_label g a b : In b (outs g a) -> In a (labels g).
Proof. unfold outs. intros H. apply g_get_in. destruct (g_get a g); eauto. destruct H. Qed.

Lemma ins_label g a b : In a (ins g b) -> In b (labels g).
Proof. unfold ins. intros H. apply g_get_in. destruct (g_get b g); eauto. destruct H. Qed.

(** Two graphs with the same shape. *)
Definition same_shape g g' : Prop :=
  labels g' = labels g /\ (forall a, outs g' a = outs g a) /\ (forall a, ins g' a = ins g a).

Lemma same_shape_refl g : same_shape g g.
Proof. repeat split. Qed.

Lemma same_shape_wf g g' : same_shape g g' -> wf g -> wf g'.
Proof.
  intros (A & B & C) [P Q R]. constructor.
  - now rewrite A.
  - intros a. rewrite B. auto.
  - intros a b. rewrite B, C. auto.
Qed.

Lemma remove_edge_spec s t g :
  wf g -> In s (labels g) -> In t (labels g) ->
  exists g', remove_edge s t g = Some g' /\ labels g' = labels g /\
    (forall a, outs g' a = if a =? s then set_del t (outs g a) else outs g a) /\
    (forall a, ins g' a = if a =? t then set_del s (ins g a) else ins g a) /\
    (forall a n, g_get a g' = Some n -> exists n0, g_get a g = Some n0 /\ n_data n0 = n_data n) /\
    wf g'.
Proof.
  intros W S T. apply g_get_in in S, T. destruct S as [ns S], T as [nt T].
  unfold remove_edge. rewrite S, T. cbn [obind].
  set (g' := g_update t (del_in s) (g_update s (del_out t) g)).
  assert (L : labels g' = labels g).
  { unfold g'. rewrite !labels_update; auto. }
  assert (O : forall a, outs g' a = if a =? s then set_del t (outs g a) else outs g a).
  { intros a. unfold outs, g'. rewrite !g_get_update by auto.
    destruct (a =? t); destruct (a =? s); destruct (g_get a g); reflexivity. }
  assert (I : forall a, ins g' a = if a =? t then set_del s (ins g a) else ins g a).
  { intros a. unfold ins, g'. rewrite !g_get_update by auto.
    destruct (a =? t); destruct (a =? s); destruct (g_get a g); reflexivity. }
  exists g'. do 4 (split; [auto|]). split.
  - intros a n. unfold g'. rewrite !g_get_update by auto.
    destruct (a =? t); destruct (a =? s); destruct (g_get a g); cbn [option_map];
      intros E; try discriminate; apply Some_inj in E; subst; eauto.
  - destruct W as [P Q R]. constructor.
    + now rewrite L.
    + intros a. rewrite O. destruct (a =? s); auto. apply set_del_nodup; auto.
    + intros a b. rewrite O, I.
      destruct (N.eqb_spec a s), (N.eqb_spec b t);
        rewrite ?set_del_in; rewrite R; intuition congruence.
Qed.

Lemma edge_count_cons n g : edge_count (n :: g) = (length (n_out n) + edge_count g)%nat.
Proof. reflexivity. Qed.

Lemma edge_count_shape g g' : NoDup (labels g) -> labels g' = labels g ->
  (forall a, outs g' a = outs g a) -> edge_count g' = edge_count g.
Proof.
  revert g'. induction g as [|n g IH]; intros g' ND L O.
  - destruct g'; [reflexivity|discriminate].
  - destruct g' as [|n' g']; [discriminate|].
    unfold labels in L. simpl in L. injection L as L1 L2.
    rewrite !edge_count_cons. f_equal.
    + specialize (O (n_label n)). unfold outs, g_get in O. cbn [find] in O.
      rewrite L1, N.eqb_refl in O. congruence.
    + apply IH; auto.
      * now inversion ND.
      * intros a. destruct (N.eq_dec a (n_label n)) as [->|Ne].
        -- assert (A : ~ In (n_label n) (labels g)) by (inversion ND; auto).
           assert (B : ~ In (n_label n) (labels g')) by (unfold labels; rewrite L2; auto).
           unfold outs. destruct (g_get (n_label n) g') eqn:E1.
           { exfalso. apply B. apply g_get_in. eauto. }
           destruct (g_get (n_label n) g) eqn:E2; auto.
           exfalso. apply A. apply g_get_in. eauto.
        -- specialize (O a). unfold outs, g_get in O. cbn [find] in O.
           rewrite L1 in O. assert (X : n_label n =? a = false) by (apply N.eqb_neq; auto).
           rewrite X in O. exact O.
Qed.

(** Removing one edge lowers the number of edges by one. *)
Lemma edge_count_remove g g' s t : NoDup (labels g) -> labels g' = labels g ->
  NoDup (outs g s) -> In t (outs g s) ->
  (forall a, outs g' a = if a =? s then set_del t (outs g a) else outs g a) ->
  edge_count g = S (edge_count g').
Proof.
  revert g'. induction g as [|n g IH]; intros g' ND L NO T O.
  - destruct T.
  - destruct g' as [|n' g']; [discriminate|].
    unfold labels in L. simpl in L. injection L as L1 L2.
    rewrite !edge_count_cons.
    assert (ND' : NoDup (labels g)) by (now inversion ND).
    assert (A : ~ In (n_label n) (labels g)) by (inversion ND; auto).
    assert (tails : forall a, a <> n_label n -> outs (n :: g) a = outs g a /\ outs (n' :: g') a = outs g' a).
    { intros a Ne. unfold outs, g_get. cbn [find]. rewrite L1.
      assert (X : n_label n =? a = false) by (apply N.eqb_neq; auto). rewrite X. auto. }
    assert (heads : outs (n :: g) (n_label n) = n_out n /\ outs (n' :: g') (n_label n) = n_out n').
    { unfold outs, g_get. cbn [find]. rewrite L1, N.eqb_refl. auto. }
    assert (gone : outs g (n_label n) = [] /\ outs g' (n_label n) = []).
    { unfold outs. destruct (g_get (n_label n) g') eqn:E1.
      { exfalso. apply A. unfold labels. rewrite <- L2. change (map n_label g') with (labels g').
        apply g_get_in. eauto. }
      destruct (g_get (n_label n) g) eqn:E2; auto.
      exfalso. apply A. apply g_get_in. eauto. }
    destruct (N.eq_dec s (n_label n)) as [->|Ne].
    + pose proof (O (n_label n)) as O1. rewrite N.eqb_refl in O1.
      destruct heads as [h1 h2]. rewrite h1, h2 in O1. rewrite h1 in NO, T.
      rewrite O1. rewrite (set_del_length t (n_out n)); auto.
      rewrite (edge_count_shape g g'); [lia|auto|auto|].
      intros a. destruct (N.eq_dec a (n_label n)) as [->|Na].
      * destruct gone; congruence.
      * destruct (tails a Na) as [t1 t2]. rewrite <- t1, <- t2, O.
        assert (X : a =? n_label n = false) by (apply N.eqb_neq; auto). now rewrite X.
    + destruct (tails s Ne) as [t1 t2].
      assert (E : n_out n' = n_out n).
      { pose proof (O (n_label n)) as O1. destruct heads as [h1 h2].
        assert (X : n_label n =? s = false) by (apply N.eqb_neq; auto).
        rewrite h1, h2, X in O1. auto. }
      rewrite E. rewrite (IH g'); auto; try lia.
      * now rewrite <- t1.
      * now rewrite <- t1.
      * intros a. destruct (N.eq_dec a (n_label n)) as [->|Na].
        -- assert (X : n_label n =? s = false) by (apply N.eqb_neq; auto).
           rewrite X. destruct gone; congruence.
        -- destruct (tails a Na) as [u1 u2]. rewrite <- u1, <- u2. apply O.
Qed.

(* ------------------------------------------------------------------------- *)
(** * Visiting the outgoing nodes of one node *)

Definition shape_keeping (rlx : N -> N -> graph D -> option (graph D)) : Prop :=
  forall d s g g', rlx d s g = Some g' -> same_shape g g'.

Lemma is_source_ins g x n : g_get x g = Some n -> (is_source n = true <-> ins g x = []).
Proof.
  intros E. unfold ins, is_source, has_incoming. rewrite E.
  destruct (n_in n); simpl; split; intros; congruence.
Qed.

Lemma visit_out_spec rlx s ds : shape_keeping rlx ->
  forall g q g' q', wf g -> NoDup ds -> (forall d, In d ds -> In d (outs g s)) ->
  visit_out rlx s ds g q = Some (g', q') ->
  wf g' /\ labels g' = labels g /\
  (forall a, a <> s -> outs g' a = outs g a) /\
  (forall b, In b (outs g' s) <-> In b (outs g s) /\ ~ In b ds) /\
  (edge_count g = length ds + edge_count g')%nat /\
  exists nq, q' = nq ++ q /\ NoDup nq /\ forall b, In b nq <-> In b ds /\ ins g' b = [].
Proof.
  intros K. induction ds as [|d ds IH]; intros g q g' q' W ND I H.
  - simpl in H. apply Some_inj in H. injection H as <- <-.
    do 4 (split; [auto; try (simpl; tauto)|]). split; [auto|].
    exists []. split; [auto|]. split; [constructor|]. simpl. intuition.
  - cbn [visit_out] in H.
    destruct (rlx d s g) as [g1|] eqn:E1; [|discriminate]. cbn [obind] in H.
    pose proof (K _ _ _ _ E1) as S1. pose proof (same_shape_wf _ _ S1 W) as W1.
    destruct S1 as (L1 & O1 & I1).
    assert (Ds : In d (outs g s)) by (apply I; now left).
    assert (Ls : In s (labels g1)) by (rewrite L1; eapply outs_label; eauto).
    assert (Ld : In d (labels g1)).
    { rewrite L1. apply (ins_label g s). apply (wf_sym _ W). auto. }
    destruct (remove_edge_spec s d g1 W1 Ls Ld) as (g2 & E2 & L2 & O2 & I2 & _ & W2).
    rewrite E2 in H. cbn [obind] in H.
    destruct (g_get d g2) as [n|] eqn:E3; [|discriminate]. cbn [obind] in H.
    inversion ND as [|? ? N1 N2]; subst.
    assert (O2s : outs g2 s = set_del d (outs g s)).
    { rewrite O2, N.eqb_refl, O1. auto. }
    apply IH in H; auto.
    2: { intros x X. rewrite O2s. apply set_del_in. split; [|apply I; now right].
         intros ->. tauto. }
    destruct H as (W' & L' & O' & Os' & C' & nq & Q' & NQ & IQ).
    split; [auto|]. split; [congruence|]. split.
    { intros a Na. rewrite O' by auto. rewrite O2.
      destruct (N.eqb_spec a s); [tauto|]. auto. }
    split.
    { intros b. rewrite Os', O2s, set_del_in. simpl. intuition. }
    split.
    { rewrite <- (edge_count_shape g g1); [|apply W|auto|auto].
      rewrite (edge_count_remove g1 g2 s d); auto.
      - rewrite C'. simpl. lia.
      - apply W1.
      - apply W1.
      - rewrite O1. auto. }
    assert (insd : ins g' d = ins g2 d \/ True) by auto.
    assert (ID : ins g' d = [] <-> is_source n = true).
    { rewrite (is_source_ins g2 d n E3). split; intros Z.
      - destruct (ins g2 d) as [|y ys] eqn:Y; auto. exfalso.
        assert (X : In y (ins g2 d)) by (rewrite Y; now left).
        apply (wf_sym _ W2) in X.
        assert (X' : In d (outs g' y)).
        { destruct (N.eq_dec y s) as [->|Ny].
          - apply Os'. auto.
          - rewrite O'; auto. }
        apply (wf_sym _ W') in X'. rewrite Z in X'. destruct X'.
      - destruct (ins g' d) as [|y ys] eqn:Y; auto. exfalso.
        assert (X : In y (ins g' d)) by (rewrite Y; now left).
        apply (wf_sym _ W') in X.
        assert (X' : In d (outs g2 y)).
        { destruct (N.eq_dec y s) as [->|Ny].
          - apply Os' in X. tauto.
          - rewrite O' in X; auto. }
        apply (wf_sym _ W2) in X'. rewrite Z in X'. destruct X'. }
    destruct (is_source n) eqn:Src.
    + exists (nq ++ [d]). rewrite <- app_assoc. split; [auto|]. split.
      * apply NoDup_rev in NQ. rewrite <- (rev_involutive (nq ++ [d])). apply NoDup_rev.
        rewrite rev_app_distr. simpl. constructor; auto. rewrite <- in_rev, IQ. tauto.
      * intros b. rewrite in_app_iff, IQ. simpl. split.
        -- intros [X|[->|[]]]; [tauto|]. split; auto. apply ID. auto.
        -- intros [[->|X] Y]; auto.
    + exists nq. split; [auto|]. split; [auto|].
      intros b. rewrite IQ. simpl. split; [tauto|]. intros [[->|X] Y]; [|tauto].
      apply ID in Y. congruence.
Qed.

Lemma visit_out_id s ds :
  forall g q, wf g -> NoDup ds -> (forall d, In d ds -> In d (outs g s)) ->
  exists r, visit_out (fun _ _ g => Some g) s ds g q = Some r.
Proof.
  induction ds as [|d ds IH]; intros g q W ND I; cbn [visit_out obind]; eauto.
  assert (Ds : In d (outs g s)) by (apply I; now left).
  assert (Ls : In s (labels g)) by (eapply outs_label; eauto).
  assert (Ld : In d (labels g)).
  { apply (ins_label g s). apply (wf_sym _ W). auto. }
  destruct (remove_edge_spec s d g W Ls Ld) as (g2 & E2 & L2 & O2 & I2 & _ & W2).
  rewrite E2. cbn [obind]. rewrite <- L2 in Ld. apply g_get_in in Ld. destruct Ld as [n En].
  rewrite En. cbn [obind]. inversion ND; subst. apply IH; auto.
  intros x X. rewrite O2, N.eqb_refl. apply set_del_in. split; [|apply I; now right].
  intros ->. tauto.
Qed.

(* ------------------------------------------------------------------------- *)
(** * The sweep *)

Definition edge g a b : Prop := In b (outs g a).
Definition from_roots g roots x : Prop := In x roots \/ exists r, In r roots /\ leads (edge g) r x.

Record inv g0 roots g q sorted : Prop := mkInv {
  i_wf : wf g;
  i_labels : labels g = labels g0;
  i_nodup : NoDup (q ++ sorted);
  i_queue : forall x, In x q -> In x roots \/ ins g x = [];
  i_sorted_out : forall x, In x sorted -> outs g x = [];
  i_other_out : forall x, ~ In x sorted -> outs g x = outs g0 x;
  i_known : forall x, In x (q ++ sorted) -> In x (labels g0);
  i_reach : forall x, In x (q ++ sorted) -> from_roots g0 roots x;
  i_before : forall i a p, nth_error sorted i = Some a -> ~ In a roots -> edge g0 p a ->
             exists j, (j < i)%nat /\ nth_error sorted j = Some p;
  i_pop : forall x, In x (q ++ sorted) -> ~ In x roots -> exists p, edge g0 p x /\ In p sorted;
  i_done : forall x, In x (labels g0) -> ins g x = [] -> ins g0 x = [] \/ In x (q ++ sorted);
  i_roots : forall x, In x roots -> In x (q ++ sorted) }.

Lemma leads_snoc E a b c : leads E a b -> E b c -> leads E a c.
Proof.
  induction 1; intros.
  - eapply leads_step; eauto. now constructor.
  - eapply leads_step; eauto.
Qed.

Lemma leads_trans E a b c : leads E a b -> leads E b c -> leads E a c.
Proof.
  induction 1; intros.
  - eapply leads_step; eauto.
  - eapply leads_step; eauto.
Qed.

Lemma leads_mono (E F : N -> N -> Prop) a b : (forall x y, E x y -> F x y) -> leads E a b -> leads F a b.
Proof. intros M. induction 1; [constructor|eapply leads_step]; eauto. Qed.

Lemma step_inv rlx g0 roots g s q sorted g' q' n :
  shape_keeping rlx -> wf g0 ->
  (forall r x, In r roots -> from_roots g0 roots x -> ~ edge g0 x r) ->
  inv g0 roots g (s :: q) sorted ->
  g_get s g = Some n ->
  visit_out rlx s (n_out n) g q = Some (g', q') ->
  inv g0 roots g' q' (sorted ++ [s]) /\
  (edge_count g' + length q' < edge_count g + length (s :: q))%nat.
Proof.
  intros K W0 NR [W L ND Q SO OO KN RE BE PO DO RO] Es V.
  assert (On : outs g s = n_out n) by (unfold outs; now rewrite Es).
  rewrite <- On in V.
  assert (Ss : ~ In s sorted).
  { simpl in ND. inversion ND; subst. rewrite in_app_iff in *. tauto. }
  assert (Os : outs g s = outs g0 s) by (apply OO; auto).
  apply visit_out_spec in V; auto; [|apply W].
  destruct V as (W' & L' & O' & Os' & C' & nq & -> & NQ & IQ).
  assert (Oe : outs g' s = []).
  { destruct (outs g' s) as [|y ys] eqn:Y; auto.
    assert (X : In y (y :: ys)) by now left. apply Os' in X. tauto. }
  assert (edges' : forall a b, edge g' a b <-> edge g a b /\ a <> s).
  { intros a b. unfold edge. destruct (N.eq_dec a s) as [->|Na].
    - rewrite Oe. simpl. tauto.
    - rewrite O' by auto. tauto. }
  assert (RS : from_roots g0 roots s) by (apply RE; now left).
  assert (news : forall b, In b nq -> edge g0 s b /\ ~ In b roots /\ ~ In b ((s :: q) ++ sorted)).
  { intros b B. apply IQ in B. destruct B as [B1 B2]. rewrite Os in B1.
    assert (NB : ~ In b roots) by (intros X; apply (NR b s X RS); auto).
    split; [auto|]. split; [auto|]. intros X.
    assert (Z : ins g b = []).
    { rewrite in_app_iff in X. destruct X as [X|X].
      - destruct (Q b X); tauto.
      - destruct (ins g b) as [|y ys] eqn:Y; auto.
        assert (Y' : In y (ins g b)) by (rewrite Y; now left).
        exfalso. apply In_nth_error in X. destruct X as [i Xi].
        destruct (BE i b s Xi NB B1) as (j & _ & J). apply nth_error_In in J. tauto. }
    rewrite <- Os in B1. apply (wf_sym _ W) in B1. rewrite Z in B1. destruct B1. }
  split.
  - constructor.
    + auto.
    + congruence.
    + apply (Permutation_NoDup (l := nq ++ (s :: q ++ sorted))).
      * rewrite <- app_assoc. apply Permutation_app_head.
        rewrite app_assoc. apply Permutation_cons_append.
      * clear -NQ ND news. assert (news' : forall b, In b nq -> ~ In b (s :: q ++ sorted)).
        { intros b B. apply news in B. apply B. }
        clear news. induction nq as [|y nq IHn]; auto. simpl.
        inversion NQ; subst. constructor.
        -- rewrite in_app_iff. intros [X|X]; [tauto|]. apply (news' y); auto. now left.
        -- apply IHn; auto. intros b B. apply news'. now right.
    + intros x X. rewrite in_app_iff in X. destruct X as [X|X].
      * right. apply IQ in X. tauto.
      * destruct (Q x) as [A|A]; [now right|auto|]. right.
        destruct (ins g' x) as [|y ys] eqn:Y; auto. exfalso.
        assert (Z : In y (ins g' x)) by (rewrite Y; now left).
        apply (wf_sym _ W') in Z. apply edges' in Z. destruct Z as [Z _].
        apply (wf_sym _ W) in Z. rewrite A in Z. destruct Z.
    + intros x X. rewrite in_app_iff in X. destruct X as [X|[->|[]]]; auto.
      rewrite O'; auto. intros ->. tauto.
    + intros x X. rewrite in_app_iff in X. simpl in X. rewrite O' by (intros ->; tauto).
      apply OO. tauto.
    + intros x X. rewrite !in_app_iff in X. simpl in X.
      destruct X as [[X|X]|[X|[->|[]]]]; try (apply KN; rewrite in_app_iff; simpl; tauto).
      apply IQ in X. destruct X as [X _]. apply (wf_sym _ W) in X. rewrite <- L.
      eapply ins_label; eauto.
    + intros x X. rewrite !in_app_iff in X. simpl in X.
      destruct X as [[X|X]|[X|[->|[]]]]; try (apply RE; rewrite in_app_iff; simpl; tauto); auto.
      apply news in X. destruct X as [X _]. right. destruct RS as [R|(r & R1 & R2)].
      * exists s. split; auto. now constructor.
      * exists r. split; auto. eapply leads_snoc; eauto.
    + intros i a p A NA P.
      assert (D1 : (i < length sorted \/ i = length sorted)%nat).
      { assert (i < length (sorted ++ [s]))%nat by (apply nth_error_Some; congruence).
        rewrite app_length in H. simpl in H. lia. }
      destruct D1 as [D1| ->].
      * rewrite nth_error_app1 in A by auto. destruct (BE i a p A NA P) as (j & J1 & J2).
        exists j. split; auto. rewrite nth_error_app1; auto. lia.
      * rewrite nth_error_app2, Nat.sub_diag in A by lia. apply Some_inj in A. subst a.
        destruct (Q s) as [X|X]; [now left|tauto|].
        assert (Ip : In p sorted).
        { destruct (in_dec N.eq_dec p sorted) as [Y|Y]; auto. exfalso.
          unfold edge in P. rewrite <- (OO p Y) in P. apply (wf_sym _ W) in P. rewrite X in P. destruct P. }
        apply In_nth_error in Ip. destruct Ip as [j J]. exists j.
        assert (j < length sorted)%nat by (apply nth_error_Some; congruence).
        split; auto. rewrite nth_error_app1; auto.
    + intros x X NX. rewrite !in_app_iff in X. simpl in X.
      assert (base : In x ((s :: q) ++ sorted) -> exists p, edge g0 p x /\ In p (sorted ++ [s])).
      { intros Y. destruct (PO x Y NX) as (p & P1 & P2). exists p. rewrite in_app_iff. auto. }
      destruct X as [[X|X]|[X|[->|[]]]]; try (apply base; rewrite in_app_iff; simpl; tauto).
      exists s. split; [|rewrite in_app_iff; simpl; tauto]. apply news; auto.
    + intros x Lx Ix. destruct (ins g x) as [|y ys] eqn:Y.
      * destruct (DO x Lx Y) as [A|A]; auto. right. rewrite !in_app_iff in *. simpl in *. tauto.
      * assert (Z : In y (ins g x)) by (rewrite Y; now left).
        apply (wf_sym _ W) in Z. destruct (N.eq_dec y s) as [->|Ny].
        -- right. rewrite !in_app_iff. left. left. apply IQ. auto.
        -- assert (Z' : edge g' y x) by (apply edges'; auto).
           apply (wf_sym _ W') in Z'. rewrite Ix in Z'. destruct Z'.
    + intros x X. apply RO in X. rewrite !in_app_iff in *. simpl in *. tauto.
  - rewrite C'. rewrite app_length. simpl.
    assert (X : (length nq <= length (outs g s))%nat).
    { apply NoDup_incl_length; auto. intros b B. apply IQ in B. tauto. }
    lia.
Qed.

Lemma sweep_inv rlx g0 roots (J : graph D -> list N -> Prop) :
  shape_keeping rlx -> wf g0 ->
  (forall r x, In r roots -> from_roots g0 roots x -> ~ edge g0 x r) ->
  (forall g s q sorted g' q' n, inv g0 roots g (s :: q) sorted -> J g sorted ->
     g_get s g = Some n -> visit_out rlx s (n_out n) g q = Some (g', q') -> J g' (sorted ++ [s])) ->
  forall fuel g q sorted g' sorted', inv g0 roots g q sorted -> J g sorted ->
  sweep rlx fuel g q sorted = Some (g', sorted') -> inv g0 roots g' [] sorted' /\ J g' sorted'.
Proof.
  intros K W0 NR St. induction fuel as [|fuel IH]; intros g q sorted g' sorted' I HJ H.
  - destruct q; [|discriminate]. cbn [sweep] in H. apply Some_inj in H. injection H as <- <-. auto.
  - destruct q as [|s q]; cbn [sweep] in H.
    + apply Some_inj in H. injection H as <- <-. auto.
    + destruct (g_get s g) as [n|] eqn:En; [|discriminate]. cbn [obind] in H.
      destruct (visit_out rlx s (n_out n) g q) as [[g1 q1]|] eqn:V; [|discriminate].
      cbn [obind] in H.
      destruct (step_inv _ _ _ _ _ _ _ _ _ _ K W0 NR I En V) as [I' _].
      eapply IH; eauto.
Qed.

Lemma sweep_total rlx g0 roots (J : graph D -> list N -> Prop) :
  shape_keeping rlx -> wf g0 ->
  (forall r x, In r roots -> from_roots g0 roots x -> ~ edge g0 x r) ->
  (forall g s q sorted g' q' n, inv g0 roots g (s :: q) sorted -> J g sorted ->
     g_get s g = Some n -> visit_out rlx s (n_out n) g q = Some (g', q') -> J g' (sorted ++ [s])) ->
  (forall g s q sorted n, inv g0 roots g (s :: q) sorted -> J g sorted ->
     g_get s g = Some n -> exists r, visit_out rlx s (n_out n) g q = Some r) ->
  forall fuel g q sorted, inv g0 roots g q sorted -> J g sorted ->
  (edge_count g + length q <= fuel)%nat ->
  exists r, sweep rlx fuel g q sorted = Some r.
Proof.
  intros K W0 NR St Pr. induction fuel as [|fuel IH]; intros g q sorted I HJ F.
  - destruct q; [|simpl in F; lia]. cbn [sweep]. eauto.
  - destruct q as [|s q]; cbn [sweep]; eauto.
    assert (Ls : In s (labels g)).
    { rewrite (i_labels _ _ _ _ _ I). apply (i_known _ _ _ _ _ I). now left. }
    apply g_get_in in Ls. destruct Ls as [n En]. rewrite En. cbn [obind].
    destruct (Pr _ _ _ _ _ I HJ En) as [[g1 q1] V]. rewrite V. cbn [obind].
    destruct (step_inv _ _ _ _ _ _ _ _ _ _ K W0 NR I En V) as [I' M].
    apply IH; eauto. lia.
Qed.

End Looking.

(* ------------------------------------------------------------------------- *)
(** * A finite set in which everything has a predecessor contains a cycle *)

Lemma backwards_cycle (E : N -> N -> Prop) (U : list N) :
  (forall u, In u U -> exists p, In p U /\ E p u) ->
  forall u, In u U -> exists x, leads E x x.
Proof.
  intros H u Hu.
  assert (G : forall n, (exists x, leads E x x) \/
    exists x l, length (x :: l) = S n /\ NoDup (x :: l) /\ incl (x :: l) U /\
      forall y, In y l -> leads E x y).
  { induction n as [|n [IH|(x & l & L & ND & I & P)]]; auto.
    - right. exists u, []. repeat split; auto.
      + constructor; [tauto|constructor].
      + intros y [<-|[]]; auto.
      + intros y [].
    - destruct (H x) as (p & Pp & Ep); [apply I; now left|].
      destruct (in_dec N.eq_dec p (x :: l)) as [Y|Y].
      + left. exists p. destruct Y as [->|Y]; [now constructor|].
        eapply leads_step; eauto.
      + right. exists p, (x :: l). repeat split.
        * simpl in *. lia.
        * now constructor.
        * intros y [<-|Z]; auto.
        * intros y [<-|Z]; [now constructor|]. eapply leads_step; eauto. }
  destruct (G (length U)) as [C|(x & l & L & ND & I & _)]; auto.
  pose proof (NoDup_incl_length ND I). lia.
Qed.

(* ------------------------------------------------------------------------- *)
(** * The topological sort *)

Section Sorting.
Context {D : Type}.
Implicit Types g : graph D.

Lemma source_nodes_in g x : NoDup (labels g) -> In x (source_nodes g) <-> In x (labels g) /\ ins g x = [].
Proof.
  intros ND. unfold source_nodes. rewrite in_map_iff. split.
  - intros (n & <- & H). apply filter_In in H. destruct H as [H S].
    assert (L : In (n_label n) (labels g)) by (unfold labels; now apply in_map).
    split; auto.
    assert (E : g_get (n_label n) g = Some n).
    { clear S L. unfold g_get. induction g as [|m g IH]; [destruct H|]. simpl.
      unfold labels in ND. simpl in ND. inversion ND as [|? ? N1 N2]; subst. destruct H as [->|H].
      - now rewrite N.eqb_refl.
      - destruct (N.eqb_spec (n_label m) (n_label n)) as [X|X]; auto.
        exfalso. apply N1. rewrite X. now apply in_map. }
    now apply (is_source_ins g _ n).
  - intros [L I]. apply g_get_in in L. destruct L as [n E].
    pose proof (g_get_some _ _ _ E) as [H1 H2].
    exists n. split; auto. apply filter_In. split; auto. apply (is_source_ins g x n); auto.
Qed.

Lemma source_nodes_nodup g : NoDup (labels g) -> NoDup (source_nodes g).
Proof.
  unfold labels, source_nodes. induction g as [|n g IH]; simpl; auto. intros H. inversion H; subst.
  destruct (is_source n); auto. simpl. constructor; auto.
  rewrite in_map_iff. intros (m & E & M). apply filter_In in M. destruct M as [M _].
  apply H2. rewrite <- E. now apply in_map.
Qed.

Lemma id_keeps : shape_keeping (fun (_ _ : N) (g : graph D) => Some g).
Proof. intros d s g g' H. apply Some_inj in H. subst. apply same_shape_refl. Qed.

Lemma start_inv g : wf g -> inv g (source_nodes g) g (rev (source_nodes g)) [].
Proof.
  intros W. assert (S : forall x, In x (rev (source_nodes g)) <-> In x (labels g) /\ ins g x = []).
  { intros x. rewrite <- in_rev. apply source_nodes_in, W. }
  constructor; auto; try (rewrite app_nil_r).
  - apply NoDup_rev, source_nodes_nodup, W.
  - intros x X. left. now apply in_rev.
  - intros x [].
  - intros x. apply S.
  - intros x X. left. now apply in_rev.
  - intros [|i] a p H; discriminate.
  - intros x X NX. exfalso. apply NX. now apply in_rev.
  - intros x X. now rewrite <- in_rev.
Qed.

Lemma source_no_pred g : wf g ->
  forall r x, In r (source_nodes g) -> from_roots g (source_nodes g) x -> ~ edge g x r.
Proof.
  intros W r x R _ E. apply source_nodes_in in R; [|apply W]. destruct R as [_ R].
  apply (wf_sym _ W) in E. rewrite R in E. destruct E.
Qed.

Lemma has_edges_false g : NoDup (labels g) ->
  has_edges g = false <-> forall x, outs g x = [] /\ ins g x = [].
Proof.
  intros ND. unfold has_edges. split.
  - intros H x. unfold outs, ins. destruct (g_get x g) as [n|] eqn:E; auto.
    apply g_get_some in E. destruct E as [E _].
    destruct (is_isolated n) eqn:I.
    + unfold is_isolated, is_sink, is_source, has_outgoing, has_incoming in I.
      destruct (n_out n), (n_in n); simpl in I; try discriminate; auto.
    + exfalso. assert (X : existsb (fun n => negb (is_isolated n)) g = true).
      { apply existsb_exists. exists n. rewrite I. auto. }
      congruence.
  - intros H. destruct (existsb _ g) eqn:X; auto. apply existsb_exists in X.
    destruct X as (n & In_ & I). exfalso.
    assert (E : g_get (n_label n) g = Some n).
    { clear H I. unfold g_get. induction g as [|m g IH]; [destruct In_|]. simpl.
      unfold labels in ND. simpl in ND. inversion ND as [|? ? N1 N2]; subst. destruct In_ as [->|H].
      - now rewrite N.eqb_refl.
      - destruct (N.eqb_spec (n_label m) (n_label n)) as [X|X]; auto.
        exfalso. apply N1. rewrite X. now apply in_map. }
    specialize (H (n_label n)). unfold outs, ins in H. rewrite E in H. destruct H as [H1 H2].
    unfold is_isolated, is_sink, is_source, has_outgoing, has_incoming in I.
    rewrite H1, H2 in I. discriminate.
Qed.

Lemma has_edges_true g : has_edges g = true -> NoDup (labels g) -> wf g ->
  exists a b, edge g a b.
Proof.
  intros H ND W. unfold has_edges in H. apply existsb_exists in H. destruct H as (n & I & H).
  assert (E : g_get (n_label n) g = Some n).
  { clear H W. unfold g_get. induction g as [|m g IH]; [destruct I|]. simpl.
    unfold labels in ND. simpl in ND. inversion ND as [|? ? N1 N2]; subst. destruct I as [->|H].
    - now rewrite N.eqb_refl.
    - destruct (N.eqb_spec (n_label m) (n_label n)) as [X|X]; auto.
      exfalso. apply N1. rewrite X. now apply in_map. }
  unfold is_isolated, is_sink, is_source, has_outgoing, has_incoming in H.
  destruct (n_out n) as [|y ys] eqn:Y.
  - destruct (n_in n) as [|z zs] eqn:Z; [discriminate|].
    exists z, (n_label n). apply (wf_sym _ W). unfold ins. rewrite E, Z. now left.
  - exists (n_label n), y. unfold edge, outs. rewrite E, Y. now left.
Qed.

(** Everything the sort can do, on a well-formed graph. *)
Lemma sort_spec g return_cycles : wf g ->
  (exists l, try_topological_sort g return_cycles = Some (Sorted l) /\
     acyclic (edge g) /\ topological (fun x => In x (labels g)) (edge g) l) \/
  (exists g' l, wf g' /\ (exists x, leads (edge g) x x) /\
     (forall a b, edge g' a b -> edge g a b) /\
     labels g' = labels g /\
     (forall u, In u (labels g) -> ~ In u l -> exists p, ~ In p l /\ edge g' p u /\ In p (labels g)) /\
     (exists u, In u (labels g) /\ ~ In u l) /\
     (forall u, In u l -> outs g' u = []) /\
     (forall u, ~ In u l -> outs g' u = outs g u) /\
     (forall u p, In u l -> edge g p u -> In p l) /\
     try_topological_sort g return_cycles =
       if return_cycles then let? c := derive_cycle g' in Some (HasCycles c) else Some (HasCycles [])).
Proof.
  intros W. unfold try_topological_sort.
  pose proof (sweep_total (fun _ _ g => Some g) g (source_nodes g) (fun _ _ => True)
    id_keeps W (source_no_pred g W)) as T.
  pose proof (sweep_inv (fun _ _ g => Some g) g (source_nodes g) (fun _ _ => True)
    id_keeps W (source_no_pred g W)) as S.
  assert (P : forall h s q sorted n, inv g (source_nodes g) h (s :: q) sorted -> True ->
     g_get s h = Some n -> exists r, visit_out (fun _ _ g => Some g) s (n_out n) h q = Some r).
  { intros h s q sorted n I _ En. assert (O : n_out n = outs h s) by (unfold outs; now rewrite En).
    rewrite O. apply visit_out_id; auto; apply (i_wf _ _ _ _ _ I). }
  destruct (T ltac:(auto) P (sweep_fuel g (rev (source_nodes g))) g (rev (source_nodes g)) []
    (start_inv g W) I (le_n _)) as [[g' l] E].
  rewrite E. cbn [obind].
  destruct (S ltac:(auto) _ _ _ _ _ _ (start_inv g W) I E) as [I' _]. clear S T P.
  destruct I' as [W' L' ND' _ SO OO KN RE BE PO DO RO]. simpl in *.
  destruct (has_edges g') eqn:HE.
  - right. exists g', l. split; [auto|].
    assert (sub : forall a b, edge g' a b -> edge g a b).
    { intros a b X. unfold edge in *. destruct (in_dec N.eq_dec a l) as [Y|Y].
      - rewrite SO in X by auto. destruct X.
      - rewrite OO in X; auto. }
    assert (pr : forall u, In u (labels g) -> ~ In u l -> exists p, ~ In p l /\ edge g' p u /\ In p (labels g)).
    { intros u U1 U2. destruct (ins g' u) as [|p ps] eqn:P.
      - exfalso. destruct (DO u U1 P) as [X|X]; [|tauto]. apply U2. apply RO.
        apply source_nodes_in; [apply W|auto].
      - assert (X : In p (ins g' u)) by (rewrite P; now left).
        apply (wf_sym _ W') in X. exists p. split.
        + intros Y. rewrite SO in X by auto. destruct X.
        + split; auto. rewrite <- L'. eapply outs_label; eauto. }
    apply has_edges_true in HE; [|apply W'|auto]. destruct HE as (a & b & AB).
    assert (Na : ~ In a l).
    { intros Y. unfold edge in AB. rewrite SO in AB by auto. destruct AB. }
    assert (La : In a (labels g)) by (rewrite <- L'; eapply outs_label; eauto).
    assert (prefix : forall u p, In u l -> edge g p u -> In p l).
    { intros u p U P. apply In_nth_error in U. destruct U as [i U].
      destruct (BE i u p U) as (j & _ & J); auto; [|eapply nth_error_In; eauto].
      intros X. apply (source_no_pred g W u p X); [|auto].
      apply source_nodes_in in X; [|apply W]. destruct X as [_ X].
      apply (wf_sym _ W) in P. rewrite X in P. destruct P. }
    split; [|split; [auto|split; [auto|split; [auto|split; [eauto|split; [auto|split; [auto|split; [auto|reflexivity]]]]]]]].
    destruct (backwards_cycle (edge g) (filter (fun x => negb (existsb (N.eqb x) l)) (labels g)))
      with (u := a) as [x X]; eauto.
    + intros u U. apply filter_In in U. destruct U as [U1 U2].
      apply negb_true_iff in U2. apply notin_existsb in U2.
      destruct (pr u U1 U2) as (p & P1 & P2 & P3). exists p. split; [|auto].
      apply filter_In. split; auto. apply negb_true_iff. now apply notin_existsb.
    + apply filter_In. split; auto. apply negb_true_iff. now apply notin_existsb.
  - left. exists l. split; [auto|].
    pose proof (proj1 (has_edges_false g' (wf_labels _ W')) HE) as HE'. clear HE. rename HE' into HE.
    assert (all : forall x, In x l <-> In x (labels g)).
    { intros x. split; [apply KN|]. intros X.
      destruct (DO x X) as [Y|Y]; [apply HE| |auto].
      apply RO, source_nodes_in; [apply W|auto]. }
    assert (fw : forall i j a b, nth_error l i = Some a -> nth_error l j = Some b -> edge g a b -> (i < j)%nat).
    { intros i j a b Ha Hb Eab. destruct (BE j b a Hb) as (k & K1 & K2); auto.
      - intros X. apply (source_no_pred g W b a X); [|auto]. apply RE. eapply nth_error_In; eauto.
      - assert (k = i); [|lia]. apply (NoDup_nth_error l); auto.
        + apply nth_error_Some. congruence.
        + congruence. }
    split; [|split; [auto|split; auto]].
    intros x X.
    assert (G : forall a b, leads (edge g) a b -> exists i j, (i < j)%nat /\ nth_error l i = Some a /\ nth_error l j = Some b).
    { assert (idx : forall a b, edge g a b -> exists i j, (i < j)%nat /\ nth_error l i = Some a /\ nth_error l j = Some b).
      { intros a b Eab.
        assert (A : In a l) by (apply all; eapply outs_label; eauto).
        assert (B : In b l) by (apply all; apply (wf_sym _ W) in Eab; eapply ins_label; eauto).
        apply In_nth_error in A, B. destruct A as [i A], B as [j B].
        exists i, j. split; eauto. }
      induction 1 as [a b Eab|a b c Eab _ (i & j & Hij & Hi & Hj)]; auto.
      destruct (idx a b Eab) as (i' & j' & Hij' & Hi' & Hj').
      exists i', j. split; [|auto]. assert (j' = i); [|lia].
      apply (NoDup_nth_error l); auto; [apply nth_error_Some|]; congruence. }
    destruct (G x x X) as (i & j & Hij & Hi & Hj).
    assert (i = j); [|lia]. apply (NoDup_nth_error l); auto; [apply nth_error_Some|]; congruence.
Qed.

(* ------------------------------------------------------------------------- *)
(** * The cycle search *)

Lemma walk_snoc E a b c l : walk E a b l -> E b c -> walk E a c (l ++ [c]).
Proof.
  induction 1; intros.
  - simpl. econstructor; eauto. constructor.
  - simpl. econstructor; eauto.
Qed.

Lemma find_cycle_spec g : forall fuel x path c start,
  (path = [] /\ x = start \/ exists y, edge g y x /\ walk (edge g) start y (rev path)) ->
  recur_find_cycle fuel g x path = Some (Some c) ->
  exists last r, c = r ++ [last] /\ In last r /\ walk (edge g) start last c.
Proof.
  induction fuel as [|fuel IH]; intros x path c start P H; cbn [recur_find_cycle] in H;
    destruct (existsb (N.eqb x) path) eqn:Ex.
  1,3: apply Some_inj, Some_inj in H; subst c; apply in_existsb in Ex;
    exists x, (rev path); cbn [rev]; split; [auto|]; split; [now rewrite <- in_rev|];
    destruct P as [[-> _]|(y & Eyx & Wk)]; [destruct Ex|]; eapply walk_snoc; eauto.
  - discriminate.
  - destruct (g_get x g) as [n|] eqn:En; [|discriminate]. cbn [obind] in H.
    assert (Wx : walk (edge g) start x (rev (x :: path))).
    { cbn [rev]. destruct P as [[-> ->]|(y & Eyx & Wk)].
      - constructor.
      - eapply walk_snoc; eauto. }
    assert (sub : forall y, In y (n_out n) -> edge g x y).
    { intros y Y. unfold edge, outs. now rewrite En. }
    induction (n_out n) as [|y ys IHy]; [discriminate|].
    destruct (recur_find_cycle fuel g y (x :: path)) as [[c'|]|] eqn:R; cbn [obind] in H; try discriminate.
    + apply Some_inj, Some_inj in H. subst c'.
      apply (IH y (x :: path) c start); auto.
      right. exists x. split; auto. apply sub. now left.
    + apply IHy; auto. intros z Z. apply sub. now right.
Qed.

(** A walk whose last node occurs earlier contains a closed chain. *)
Lemma walk_head E a b l : walk E a b l -> exists r, l = a :: r.
Proof. inversion 1; eauto. Qed.

Lemma walk_suffix (E : N -> N -> Prop) a b l x : walk E a b l -> In x l ->
  exists p s, l = p ++ s /\ walk E x b s.
Proof.
  induction 1 as [a|a b c l Eab Wk IH]; intros I.
  - destruct I as [<-|[]]. exists [], [a]. split; auto. constructor.
  - destruct I as [<-|I].
    + exists [], (a :: l). split; auto. econstructor; eauto.
    + destruct (IH I) as (p & s & -> & S). exists (a :: p), s. auto.
Qed.

Lemma lasso (E : N -> N -> Prop) a last r : walk E a last (r ++ [last]) -> In last r ->
  exists p s, r ++ [last] = p ++ s /\ closed_chain E s.
Proof.
  intros H I. apply in_split in I. destruct I as (p & s & ->).
  exists p, ((last :: s) ++ [last]). split; [now rewrite <- app_assoc|].
  rewrite <- app_assoc in H. revert a H. induction p as [|y p IH]; intros a H.
  - simpl in *. inversion H; subst.
    + destruct s; discriminate.
    + destruct s as [|z s]; simpl in *.
      * exists last, last, []. auto.
      * exists last, z, (s ++ [last]). split; auto.
  - apply (IH (hd 0 (p ++ (last :: s) ++ [last]))). simpl in H. inversion H; subst.
    + destruct p; discriminate.
    + pose proof (walk_head _ _ _ _ H5) as [r E0]. simpl. rewrite E0 in *. simpl. auto.
Qed.

Lemma closed_chain_leads (E : N -> N -> Prop) l : closed_chain E l -> exists x, leads E x x.
Proof.
  intros (x & y & r & -> & H). exists x.
  assert (G : forall a b l, walk E a b l -> (a = b /\ l = [a]) \/ leads E a b).
  { clear. induction 1 as [a|a b c l Eab Wk [[-> ->]|IH]]; auto.
    - right. now constructor.
    - right. eapply leads_step; eauto. }
  destruct (G _ _ _ H) as [[_ X]|X]; auto. discriminate.
Qed.

End Sorting.

(* ------------------------------------------------------------------------- *)
(** * Building *)

Section Building.
Context {D : Type}.
Implicit Types g : graph D.

Definition dat g (x : N) : option D := match g_get x g with Some n => Some (n_data n) | None => None end.

Lemma dat_label g x : In x (labels g) <-> exists d, dat g x = Some d.
Proof.
  rewrite g_get_in. unfold dat. split.
  - intros [n E]. rewrite E. eauto.
  - intros [d E]. destruct (g_get x g); eauto. discriminate.
Qed.

Lemma g_get_app l g g' : g_get l (g ++ g') = match g_get l g with Some n => Some n | None => g_get l g' end.
Proof.
  unfold g_get. induction g as [|n g IH]; simpl; auto. destruct (n_label n =? l); auto.
Qed.

Lemma get_or_create_spec d l g : wf g ->
  let g' := get_or_create d l g in
  wf g' /\ (forall x, In x (labels g') <-> x = l \/ In x (labels g)) /\
  (forall a, outs g' a = outs g a) /\ (forall a, ins g' a = ins g a) /\
  (forall a, dat g' a = match dat g a with Some v => Some v | None => if a =? l then Some d else None end).
Proof.
  intros W. unfold get_or_create. destruct (g_get l g) as [n|] eqn:E; cbv zeta.
  - split; [auto|]. split.
    { intros x. split; auto. intros [->|X]; auto. apply g_get_in. eauto. }
    split; [auto|]. split; [auto|]. intros a. unfold dat.
    destruct (g_get a g) eqn:F; auto. destruct (N.eqb_spec a l); auto. congruence.
  - assert (NL : ~ In l (labels g)).
    { intros X. apply g_get_in in X. destruct X. congruence. }
    assert (G : forall a, g_get a (g ++ [mkNode l d [] []]) =
      match g_get a g with Some n => Some n | None => if l =? a then Some (mkNode l d [] []) else None end).
    { intros a. rewrite g_get_app. destruct (g_get a g); auto. }
    assert (O : forall a, outs (g ++ [mkNode l d [] []]) a = outs g a).
    { intros a. unfold outs. rewrite G. destruct (g_get a g); auto. destruct (l =? a); auto. }
    assert (I : forall a, ins (g ++ [mkNode l d [] []]) a = ins g a).
    { intros a. unfold ins. rewrite G. destruct (g_get a g); auto. destruct (l =? a); auto. }
    assert (L : labels (g ++ [mkNode l d [] []]) = labels g ++ [l]).
    { unfold labels. now rewrite map_app. }
    split.
    { destruct W as [P Q R]. constructor.
      - rewrite L. apply NoDup_rev in P. rewrite <- (rev_involutive (labels g ++ [l])).
        apply NoDup_rev. rewrite rev_app_distr. simpl. constructor; auto. now rewrite <- in_rev.
      - intros a. rewrite O. auto.
      - intros a b. rewrite O, I. auto. }
    split.
    { intros x. rewrite L, in_app_iff. simpl. intuition. }
    split; [auto|]. split; [auto|]. intros a. unfold dat. rewrite G.
    destruct (g_get a g); auto. rewrite (N.eqb_sym l a). destruct (a =? l); auto.
Qed.

Lemma add_edge_spec d s t g : wf g -> s <> t ->
  exists g', add_edge d s t g = Some g' /\ wf g' /\
  (forall x, In x (labels g') <-> x = s \/ x = t \/ In x (labels g)) /\
  (forall a b, edge g' a b <-> (a = s /\ b = t) \/ edge g a b) /\
  (forall a, dat g' a = match dat g a with Some v => Some v | None => if (a =? s) || (a =? t) then Some d else None end).
Proof.
  intros W Ne. unfold add_edge.
  assert (X : s =? t = false) by (now apply N.eqb_neq). rewrite X.
  destruct (get_or_create_spec d t g W) as (W1 & L1 & O1 & I1 & D1).
  destruct (get_or_create_spec d s _ W1) as (W2 & L2 & O2 & I2 & D2).
  set (g2 := get_or_create d s (get_or_create d t g)) in *.
  set (g3 := g_update s (add_out t) g2).
  assert (G3 : forall l, In l (labels g2) -> get_or_create d l g3 = g3).
  { intros l H. unfold get_or_create. assert (Y : In l (labels g3)).
    { unfold g3. rewrite labels_update; auto. }
    apply g_get_in in Y. destruct Y as [n Y]. now rewrite Y. }
  rewrite (G3 s) by (apply L2; auto). rewrite (G3 t) by (apply L2; right; apply L1; auto).
  set (g' := g_update t (add_in s) g3).
  assert (L : labels g' = labels g2).
  { unfold g', g3. rewrite !labels_update; auto. }
  assert (O : forall a, outs g' a = if a =? s then set_add t (outs g a) else outs g a).
  { intros a. rewrite <- O1, <- O2.
    assert (Z : In s (labels g2)) by (apply L2; auto). apply g_get_in in Z. destruct Z as [ns Z].
    unfold outs, g', g3. rewrite !g_get_update by auto.
    destruct (N.eqb_spec a s) as [->|].
    - rewrite Z. destruct (s =? t); reflexivity.
    - destruct (a =? t); destruct (g_get a g2); reflexivity. }
  assert (I : forall a, ins g' a = if a =? t then set_add s (ins g a) else ins g a).
  { intros a. rewrite <- I1, <- I2.
    assert (Z : In t (labels g2)) by (apply L2; right; apply L1; auto). apply g_get_in in Z. destruct Z as [nt Z].
    unfold ins, g', g3. rewrite !g_get_update by auto.
    destruct (N.eqb_spec a t) as [->|].
    - rewrite Z. destruct (t =? s); reflexivity.
    - destruct (a =? s); destruct (g_get a g2); reflexivity. }
  exists g'. split; [auto|]. split.
  { destruct W as [P Q R]. constructor.
    - rewrite L. apply W2.
    - intros a. rewrite O. destruct (a =? s); auto. apply set_add_nodup; auto.
    - intros a b. rewrite O, I. destruct (N.eqb_spec a s), (N.eqb_spec b t);
        rewrite ?set_add_in, R; intuition congruence. }
  split.
  { intros x. rewrite L, L2, L1. tauto. }
  split.
  { intros a b. unfold edge. rewrite O. destruct (N.eqb_spec a s); rewrite ?set_add_in; intuition congruence. }
  intros a. assert (dat g' a = dat g2 a) as ->.
  { unfold dat, g', g3. rewrite !g_get_update by auto.
    destruct (a =? t); destruct (a =? s); destruct (g_get a g2); reflexivity. }
  rewrite D2, D1. destruct (dat g a); auto. destruct (a =? t), (a =? s); reflexivity.
Qed.

Lemma wf_empty : wf (@nil (node D)).
Proof. constructor; simpl; try constructor. auto. auto. Qed.

End Building.

Lemma build_calls_spec ops : forall g, wf g -> no_self_edges ops ->
  exists g', build_calls ops g = Some g' /\ wf g' /\
  (forall x, In x (labels g') <-> asked_node ops x \/ In x (labels g)) /\
  (forall a b, edge g' a b <-> asked_edge ops a b \/ edge g a b).
Proof.
  unfold no_self_edges, asked_node, asked_edge.
  induction ops as [|[l|a b] ops IH]; intros g W NS; cbn [build_calls].
  - exists g. split; [auto|]. split; [auto|]. split; intros; simpl; [|tauto].
    split; auto. intros [[[]|(y & [[]|[]])]|X]; auto.
  - destruct (get_or_create_spec tt l g W) as (W1 & L1 & O1 & I1 & _).
    destruct (IH (add_target l g)) as (g' & E & W' & L' & E').
    { auto. } { intros x X. apply (NS x). now right. }
    exists g'. split; [auto|]. split; [auto|]. split.
    + intros x. rewrite L'. unfold add_target. rewrite L1. simpl. split.
      * intros [[X|(y & X)]|[->|X]]; auto. left. right. exists y.
        destruct X; [left|right]; right; auto.
      * intros [[[X|X]|(y & [X|X])]|X]; try discriminate; auto.
        -- injection X as ->. auto.
        -- destruct X as [X|X]; [discriminate|]. left. right. eauto.
        -- destruct X as [X|X]; [discriminate|]. left. right. eauto.
    + intros x y. rewrite E'. unfold edge, add_target. rewrite O1. simpl.
      split; [|intros [[X|X]|X]]; try tauto. discriminate.
  - assert (Ne : a <> b) by (intros ->; apply (NS b); now left).
    destruct (add_edge_spec tt a b g W Ne) as (g1 & E1 & W1 & L1 & Ed1 & _).
    unfold add_call. rewrite E1. cbn [obind].
    destruct (IH g1 W1) as (g' & E & W' & L' & E').
    { intros x X. apply (NS x). now right. }
    exists g'. split; [auto|]. split; [auto|]. split.
    + intros x. rewrite L', L1. simpl. split.
      * intros [[X|(y & X)]|[->|[->|X]]]; auto.
        -- left. right. exists y. destruct X; [left|right]; right; auto.
        -- left. right. exists b. left. now left.
        -- left. right. exists a. right. now left.
      * intros [[[X|X]|(y & [X|X])]|X]; try discriminate; auto.
        -- destruct X as [X|X]; [injection X as -> ->; auto|]. left. right. eauto.
        -- destruct X as [X|X]; [injection X as -> ->; auto|]. left. right. eauto.
    + intros x y. rewrite E', Ed1. simpl. split.
      * intros [X|[[-> ->]|X]]; auto.
      * intros [[X|X]|X]; auto. injection X as -> ->. auto.
Qed.

Lemma build_calls_self ops x : asked_edge ops x x -> forall g, build_calls ops g = None.
Proof.
  unfold asked_edge. induction ops as [|[l|a b] ops IH]; intros H g; simpl in H; [tauto| |].
  - destruct H as [H|H]; [discriminate|]. cbn [build_calls]. auto.
  - cbn [build_calls]. destruct H as [H|H].
    + injection H as -> ->. unfold add_call, add_edge. now rewrite N.eqb_refl.
    + destruct (add_call a b g); cbn [obind]; auto.
Qed.

Lemma acyclic_ext (E F : N -> N -> Prop) : (forall a b, E a b <-> F a b) -> acyclic E -> acyclic F.
Proof. intros H A x X. apply (A x). eapply leads_mono; [|eauto]. intros; now apply H. Qed.

Lemma walk_mono (E F : N -> N -> Prop) a b l : (forall x y, E x y -> F x y) -> walk E a b l -> walk F a b l.
Proof. intros M. induction 1; econstructor; eauto. Qed.

(* ------------------------------------------------------------------------- *)
(** * Maximum-weight paths *)

Definition tot (g : wgraph) (x : N) : option N := let? d := dat g x in total_weight d.

Lemma dat_update l f (g : wgraph) x :
  dat (update_data l f g) x = if x =? l then option_map f (dat g x) else dat g x.
Proof.
  unfold dat, update_data. rewrite g_get_update by auto.
  destruct (x =? l); auto. destruct (g_get x g); auto.
Qed.

Lemma update_shape l f (g : wgraph) : same_shape g (update_data l f g).
Proof.
  unfold update_data. split; [|split].
  - now rewrite labels_update.
  - intros a. unfold outs. rewrite g_get_update by auto. destruct (a =? l); auto.
    destruct (g_get a g); auto.
  - intros a. unfold ins. rewrite g_get_update by auto. destruct (a =? l); auto.
    destruct (g_get a g); auto.
Qed.

Lemma relax_keeps : shape_keeping relax.
Proof.
  intros d s g g' H. unfold relax in H.
  destruct (g_get s g); [|discriminate]. cbn [obind] in H.
  destruct (total_weight (n_data n)); [|discriminate]. cbn [obind] in H.
  apply Some_inj in H. subst. apply update_shape.
Qed.

Lemma dat_remove_edge {D} s t (g g' : graph D) : remove_edge s t g = Some g' -> forall x, dat g' x = dat g x.
Proof.
  unfold remove_edge. destruct (g_get s g); [|discriminate]. cbn [obind].
  destruct (g_get t g); [|discriminate]. cbn [obind]. intros H x. apply Some_inj in H. subst.
  unfold dat. rewrite !g_get_update by auto.
  destruct (x =? t), (x =? s), (g_get x g); reflexivity.
Qed.

Lemma relax_some d s g g' : relax d s g = Some g' <->
  exists w, tot g s = Some w /\ g' = update_data d (weight_relax s w) g.
Proof.
  unfold relax, tot, dat. destruct (g_get s g); cbn [obind].
  - destruct (total_weight (n_data n)); cbn [obind]; split.
    + intros H. apply Some_inj in H. eauto.
    + intros (w & E & ->). apply Some_inj in E. now subst.
    + discriminate.
    + intros (w & E & _). discriminate.
  - split; [discriminate|]. intros (w & E & _). discriminate.
Qed.

Lemma visit_relax_data s ds : forall g q g' q', ~ In s ds -> NoDup ds ->
  visit_out relax s ds g q = Some (g', q') ->
  ds = [] /\ g' = g \/
  exists w, tot g s = Some w /\
    forall x, dat g' x = if existsb (N.eqb x) ds then option_map (weight_relax s w) (dat g x) else dat g x.
Proof.
  induction ds as [|d ds IH]; intros g q g' q' Ns ND H; cbn [visit_out] in H.
  - apply Some_inj in H. injection H as <- <-. auto.
  - right. destruct (relax d s g) as [g1|] eqn:R; [|discriminate]. cbn [obind] in H.
    apply relax_some in R. destruct R as (w & Ew & ->). exists w. split; [auto|].
    destruct (remove_edge s d _) as [g2|] eqn:E2; [|discriminate]. cbn [obind] in H.
    destruct (g_get d g2) as [n|] eqn:E3; [|discriminate]. cbn [obind] in H.
    pose proof (dat_remove_edge _ _ _ _ E2) as D2.
    inversion ND as [|? ? N1 N2]; subst.
    assert (Nsd : s <> d) by (intros ->; apply Ns; now left).
    assert (dat g2 s = dat g s) as Ds.
    { rewrite D2, dat_update. destruct (N.eqb_spec s d); tauto. }
    apply IH in H; auto; [|intros X; apply Ns; now right].
    intros x. cbn [existsb]. destruct H as [[-> ->]|(w' & Ew' & Dx)].
    + simpl. rewrite D2, dat_update, orb_false_r. auto.
    + assert (w' = w).
      { unfold tot in *. rewrite Ds in Ew'. congruence. }
      subst w'. rewrite Dx, D2, dat_update. destruct (N.eqb_spec x d) as [->|]; simpl; auto.
      apply notin_existsb in N1. now rewrite N1.
Qed.

Lemma visit_relax_total s ds : forall g q, wf g -> ~ In s ds -> NoDup ds ->
  (forall d, In d ds -> In d (outs g s)) ->
  (ds = [] \/ exists w, tot g s = Some w) ->
  exists r, visit_out relax s ds g q = Some r.
Proof.
  induction ds as [|d ds IH]; intros g q W Ns ND I T; cbn [visit_out]; eauto.
  destruct T as [T|[w T]]; [discriminate|].
  assert (R : relax d s g = Some (update_data d (weight_relax s w) g)) by (apply relax_some; eauto).
  rewrite R. cbn [obind].
  pose proof (update_shape d (weight_relax s w) g) as Sh.
  pose proof (same_shape_wf _ _ Sh W) as W1. destruct Sh as (L1 & O1 & I1).
  set (g1 := update_data d (weight_relax s w) g) in *.
  assert (Ds : In d (outs g s)) by (apply I; now left).
  assert (Ls : In s (labels g1)) by (rewrite L1; eapply outs_label; eauto).
  assert (Ld : In d (labels g1)).
  { rewrite L1. apply (ins_label g s). apply (wf_sym _ W). auto. }
  destruct (remove_edge_spec s d g1 W1 Ls Ld) as (g2 & E2 & L2 & O2 & I2 & _ & W2).
  rewrite E2. cbn [obind]. rewrite <- L2 in Ld. apply g_get_in in Ld. destruct Ld as [n En].
  rewrite En. cbn [obind]. inversion ND; subst. apply IH; auto.
  - intros X. apply Ns. now right.
  - intros x X. rewrite O2, N.eqb_refl, O1. apply set_del_in. split; [|apply I; now right].
    intros ->. tauto.
  - right. exists w. unfold tot. rewrite (dat_remove_edge _ _ _ _ E2). unfold g1. rewrite dat_update.
    destruct (N.eqb_spec s d) as [->|]; auto. exfalso. apply Ns. now left.
Qed.

(** The weights found so far. *)
Record winv (wt : N -> N) (start : N) (g1 g : wgraph) (sorted : list N) : Prop := mkWinv {
  v_weight : forall x d, dat g x = Some d -> w_weight d = Some (wt x);
  v_dep : forall x d dep, dat g x = Some d -> w_dep_weight d = Some dep ->
    (x = start /\ dep = 0) \/
    (x <> start /\ exists p, w_dep_label d = Some p /\ In p sorted /\ edge g1 p x /\ tot g p = Some dep);
  v_relaxed : forall p x, In p sorted -> edge g1 p x ->
    exists d dep t, dat g x = Some d /\ w_dep_weight d = Some dep /\ tot g p = Some t /\ t <= dep;
  v_start : exists d, dat g start = Some d /\ w_dep_weight d = Some 0 }.

Lemma winv_step wt start g1 g s q sorted g' q' n :
  wf g1 ->
  (forall x, from_roots g1 [start] x -> ~ edge g1 x start) ->
  inv g1 [start] g (s :: q) sorted -> winv wt start g1 g sorted ->
  g_get s g = Some n -> visit_out relax s (n_out n) g q = Some (g', q') ->
  winv wt start g1 g' (sorted ++ [s]).
Proof.
  intros W1 NR [W L ND Q SO OO KN RE BE PO DO RO] [VW VD VR VS] En V.
  assert (Ss : ~ In s sorted).
  { simpl in ND. inversion ND; subst. rewrite in_app_iff in *. tauto. }
  assert (On : n_out n = outs g1 s).
  { rewrite <- (OO s Ss). unfold outs. now rewrite En. }
  rewrite On in V.
  assert (RS : from_roots g1 [start] s) by (apply RE; now left).
  assert (dis : forall x, edge g1 s x -> x <> start /\ ~ In x sorted).
  { intros x X. assert (Nx : x <> start) by (intros ->; apply (NR s); auto).
    split; auto. intros Y. apply In_nth_error in Y. destruct Y as [i Y].
    destruct (BE i x s Y) as (j & _ & J); auto.
    - intros [Z|[]]. auto.
    - apply nth_error_In in J. tauto. }
  assert (Nss : ~ In s (outs g1 s)).
  { intros X. destruct (dis s X) as [Y _].
    destruct (Q s) as [[Z|[]]|Z]; [now left|congruence|].
    rewrite <- (OO s Ss) in X. apply (wf_sym _ W) in X. rewrite Z in X. destruct X. }
  apply visit_relax_data in V; [|auto|apply W1].
  destruct V as [[E ->]|(w & Ew & Dx)].
  - constructor; auto.
    + intros x d dep X Y. destruct (VD x d dep X Y) as [A|(A & p & B & C & F & G)]; auto.
      right. split; auto. exists p. rewrite in_app_iff. auto.
    + intros p x P X. rewrite in_app_iff in P. destruct P as [P|[<-|[]]]; auto.
      unfold edge in X. rewrite E in X. destruct X.
  - assert (same : forall x, ~ In x (outs g1 s) -> dat g' x = dat g x).
    { intros x X. rewrite Dx. apply notin_existsb in X. now rewrite X. }
    assert (ch : forall x, In x (outs g1 s) -> dat g' x = option_map (weight_relax s w) (dat g x)).
    { intros x X. rewrite Dx. apply in_existsb in X. now rewrite X. }
    assert (tots : forall p, In p (sorted ++ [s]) -> tot g' p = tot g p).
    { intros p P. unfold tot. rewrite same; auto. intros X.
      rewrite in_app_iff in P. destruct P as [P|[<-|[]]]; [|tauto].
      destruct (dis p X). tauto. }
    assert (Is : In s (sorted ++ [s])) by (rewrite in_app_iff; simpl; tauto).
    constructor.
    + intros x d X. destruct (in_dec N.eq_dec x (outs g1 s)) as [Y|Y].
      * rewrite ch in X by auto. destruct (dat g x) as [d0|] eqn:D0; [|discriminate].
        apply Some_inj in X. subst d. pose proof (VW _ _ D0) as Z.
        unfold weight_relax. destruct (w_dep_weight d0); auto. destruct (_ <? _); auto.
      * rewrite same in X by auto. eauto.
    + assert (old : forall x d dep, dat g x = Some d -> w_dep_weight d = Some dep ->
        x = start /\ dep = 0 \/ x <> start /\ exists p, w_dep_label d = Some p /\
          In p (sorted ++ [s]) /\ edge g1 p x /\ tot g' p = Some dep).
      { intros x d dep X Y. destruct (VD x d dep X Y) as [A|(A & p & B & C & F & G)]; auto.
        right. split; auto. exists p. rewrite tots; rewrite in_app_iff; auto. }
      intros x d dep X Y. destruct (in_dec N.eq_dec x (outs g1 s)) as [Z|Z].
      * rewrite ch in X by auto. destruct (dat g x) as [d0|] eqn:D0; [|discriminate].
        apply Some_inj in X. subst d. destruct (dis x Z) as [Nx _].
        assert (new : Some w = Some dep -> x <> start /\ exists p, Some s = Some p /\
          In p (sorted ++ [s]) /\ edge g1 p x /\ tot g' p = Some dep).
        { intros A. split; auto. exists s. split; auto. split; auto. split; auto.
          rewrite tots by auto. congruence. }
        unfold weight_relax in Y |- *. destruct (w_dep_weight d0) as [cur|] eqn:C.
        -- destruct (cur <? w); simpl in Y |- *; [right; auto|]. apply old; auto.
        -- simpl in Y |- *. right. auto.
      * rewrite same in X by auto. apply old; auto.
    + intros p x P X. rewrite in_app_iff in P. destruct P as [P|[<-|[]]].
      * destruct (VR p x P X) as (d & dep & t & A & B & C & F).
        assert (Tp : tot g' p = Some t) by (rewrite tots; auto; rewrite in_app_iff; auto).
        destruct (in_dec N.eq_dec x (outs g1 s)) as [Z|Z].
        -- rewrite ch by auto. rewrite A. cbn [option_map].
           unfold weight_relax. rewrite B. destruct (N.ltb_spec dep w).
           ++ eexists _, _, t. split; [reflexivity|]. split; [reflexivity|]. split; [auto|]. lia.
           ++ eexists _, _, t. split; [reflexivity|]. split; [eassumption|]. auto.
        -- rewrite same by auto. eexists _, _, _. eauto.
      * rewrite ch by auto. assert (Lx : In x (labels g)).
        { rewrite L. apply (ins_label g1 s). apply (wf_sym _ W1). auto. }
        apply dat_label in Lx. destruct Lx as [d0 D0]. rewrite D0. cbn [option_map].
        assert (Tp : tot g' s = Some w) by (rewrite tots; auto).
        unfold weight_relax. destruct (w_dep_weight d0) as [cur|] eqn:C.
        -- destruct (N.ltb_spec cur w).
           ++ eexists _, _, w. split; [reflexivity|]. split; [reflexivity|]. split; [auto|]. lia.
           ++ eexists _, _, w. split; [reflexivity|]. split; [eassumption|]. split; [auto|]. lia.
        -- eexists _, _, w. split; [reflexivity|]. split; [reflexivity|]. split; [auto|]. lia.
    + destruct VS as (d & A & B). exists d. split; auto. rewrite same; auto.
      intros X. destruct (dis _ X). tauto.
Qed.

Lemma walk_last (E : N -> N -> Prop) a b l : walk E a b l ->
  (a = b /\ l = [a]) \/ exists p l0, l = l0 ++ [b] /\ walk E a p l0 /\ E p b.
Proof.
  induction 1 as [a|a b c l Eab Wk [[-> ->]|(p & l0 & -> & W0 & Epc)]]; auto.
  - right. exists a, [a]. split; auto. split; auto. constructor.
  - right. exists p, (a :: l0). split; auto. split; auto. econstructor; eauto.
Qed.

Lemma walk_leads (E : N -> N -> Prop) a b l : walk E a b l -> a = b \/ leads E a b.
Proof.
  induction 1 as [a|a b c l Eab Wk [->|IH]]; auto; right.
  - now constructor.
  - eapply leads_step; eauto.
Qed.

Definition wsum (wt : N -> N) (l : list N) : N := fold_right (fun x s => wt x + s) 0 l.

Lemma wsum_snoc wt l x : wsum wt (l ++ [x]) = wsum wt l + wt x.
Proof. unfold wsum. induction l as [|y l IH]; cbn [app fold_right]; [lia|]. rewrite IH. lia. Qed.

Lemma total_weight_some d dep w t : w_dep_weight d = Some dep -> w_weight d = Some w ->
  total_weight d = Some t -> t = dep + w.
Proof.
  intros A B. unfold total_weight. rewrite A, B. cbn [obind]. unfold add_usize.
  destruct (_ <=? _); [|discriminate]. intros H. apply Some_inj in H. auto.
Qed.

(** Every recorded weight is the weight of a walk that the links describe. *)
Lemma winv_walk wt start g1 g q sorted :
  (forall x, from_roots g1 [start] x -> ~ edge g1 x start) ->
  inv g1 [start] g q sorted -> winv wt start g1 g sorted ->
  forall i x d dep, nth_error sorted i = Some x -> dat g x = Some d -> w_dep_weight d = Some dep ->
  exists l, walk (edge g1) start x l /\ wsum wt l = dep + wt x /\
    forall fuel acc, (i <= fuel)%nat ->
      walk_back fuel g start x acc = Some (map (fun y => (y, wt y)) l ++ acc).
Proof.
  intros NR I V i. destruct I as [W L ND Q SO OO KN RE BE PO DO RO]. destruct V as [VW VD VR VS].
  induction i as [i IH] using (well_founded_induction lt_wf). intros x d dep Hi Hd Hdep.
  destruct (VD x d dep Hd Hdep) as [[-> ->]|(Nx & p & Lp & Ip & Ep & Tp)].
  - exists [start]. split; [constructor|]. split; [unfold wsum; simpl; lia|].
    intros fuel acc _. assert (E : node_weight_by_label g start = Some (wt start)).
    { pose proof (VW _ _ Hd) as X. unfold node_weight_by_label. unfold dat in Hd.
      destruct (g_get start g); [|discriminate]. apply Some_inj in Hd. subst. auto. }
    destruct fuel; cbn [walk_back]; rewrite N.eqb_refl, E; reflexivity.
  - destruct (BE i x p Hi) as (j & Hji & Hj); auto.
    { intros [->|[]]. tauto. }
    unfold tot in Tp. destruct (dat g p) as [dp|] eqn:Dp; [|discriminate]. cbn [obind] in Tp.
    destruct (w_dep_weight dp) as [depp|] eqn:DDp.
    2: { unfold total_weight in Tp. rewrite DDp in Tp. discriminate. }
    pose proof (total_weight_some _ _ _ _ DDp (VW _ _ Dp) Tp) as Ht.
    destruct (IH j Hji p dp depp Hj Dp DDp) as (l & Wl & Sl & Bl).
    exists (l ++ [x]). split; [eapply walk_snoc; eauto|].
    split; [rewrite wsum_snoc; lia|].
    intros fuel acc Hf. destruct fuel as [|fuel]; [lia|]. cbn [walk_back].
    assert (X : x =? start = false) by (now apply N.eqb_neq). rewrite X.
    assert (E : node_weight_by_label g x = Some (wt x) /\ node_dep_by_label g x = Some p).
    { pose proof (VW _ _ Hd) as Y. unfold node_weight_by_label, node_dep_by_label. unfold dat in Hd.
      destruct (g_get x g); [|discriminate]. apply Some_inj in Hd. subst. auto. }
    destruct E as [E1 E2]. rewrite E1, E2. cbn [obind].
    rewrite Bl by lia. rewrite map_app, <- app_assoc. reflexivity.
Qed.

(** No walk weighs more. *)
Lemma winv_max wt start g1 g q sorted :
  (forall x, from_roots g1 [start] x -> ~ edge g1 x start) ->
  inv g1 [start] g q sorted -> winv wt start g1 g sorted ->
  forall i x l, nth_error sorted i = Some x -> walk (edge g1) start x l ->
  exists d dep, dat g x = Some d /\ w_dep_weight d = Some dep /\ wsum wt l <= dep + wt x.
Proof.
  intros NR I V i. destruct I as [W L ND Q SO OO KN RE BE PO DO RO]. destruct V as [VW VD VR VS].
  induction i as [i IH] using (well_founded_induction lt_wf). intros x l Hi Wl.
  destruct (walk_last _ _ _ _ Wl) as [[-> ->]|(p & l0 & -> & W0 & Ep)].
  - destruct VS as (d & A & B). exists d, 0. split; [auto|]. split; [auto|]. unfold wsum. simpl. lia.
  - assert (Nx : x <> start).
    { intros ->. apply (NR p); auto. destruct (walk_leads _ _ _ _ W0) as [->|X].
      - left. now left.
      - right. exists start. split; [now left|auto]. }
    destruct (BE i x p Hi) as (j & Hji & Hj); auto.
    { intros [->|[]]. tauto. }
    destruct (IH j Hji p l0 Hj W0) as (dp & depp & A & B & C).
    destruct (VR p x) as (d & dep & t & A' & B' & C' & D'); auto.
    { eapply nth_error_In; eauto. }
    exists d, dep. split; [auto|]. split; [auto|].
    unfold tot in C'. rewrite A in C'. cbn [obind] in C'.
    pose proof (total_weight_some _ _ _ _ B (VW _ _ A) C'). rewrite wsum_snoc. lia.
Qed.

(** ** Pruning *)

Lemma remove_edges_spec {D} s ds : forall (g : graph D), wf g -> NoDup ds ->
  (forall d, In d ds -> In d (outs g s)) ->
  exists g', remove_edges s ds g = Some g' /\ wf g' /\ labels g' = labels g /\
    (forall a, a <> s -> outs g' a = outs g a) /\
    (forall b, In b (outs g' s) <-> In b (outs g s) /\ ~ In b ds) /\
    (forall a, dat g' a = dat g a).
Proof.
  induction ds as [|d ds IH]; intros g W ND I; cbn [remove_edges].
  - exists g. split; [auto|]. split; [auto|]. split; [auto|]. split; [auto|]. split; [|auto].
    simpl. tauto.
  - assert (Ds : In d (outs g s)) by (apply I; now left).
    assert (Ls : In s (labels g)) by (eapply outs_label; eauto).
    assert (Ld : In d (labels g)).
    { apply (ins_label g s). apply (wf_sym _ W). auto. }
    destruct (remove_edge_spec s d g W Ls Ld) as (g2 & E2 & L2 & O2 & I2 & _ & W2).
    pose proof (dat_remove_edge _ _ _ _ E2) as D2.
    rewrite E2. cbn [obind]. inversion ND; subst.
    destruct (IH g2) as (g' & E' & W' & L' & O' & Os' & D'); auto.
    { intros x X. rewrite O2, N.eqb_refl. apply set_del_in. split; [|apply I; now right].
      intros ->. tauto. }
    exists g'. split; [auto|]. split; [auto|]. split; [congruence|]. split.
    { intros a Na. rewrite O', O2 by auto. destruct (N.eqb_spec a s); tauto. }
    split.
    { intros b. rewrite Os', O2, N.eqb_refl, set_del_in. simpl. intuition. }
    intros a. now rewrite D', D2.
Qed.

Lemma remove_nodes_spec xs : forall (g : wgraph), wf g -> (forall x, In x xs -> In x (labels g)) ->
  exists g', remove_nodes xs g = Some g' /\ wf g' /\ labels g' = labels g /\
    (forall a, outs g' a = if existsb (N.eqb a) xs then [] else outs g a) /\
    (forall a, dat g' a = dat g a).
Proof.
  induction xs as [|x xs IH]; intros g W I; cbn [remove_nodes].
  - exists g. auto.
  - assert (Lx : In x (labels g)) by (apply I; now left). apply g_get_in in Lx. destruct Lx as [n En].
    unfold remove_node. rewrite En. cbn [obind].
    assert (On : n_out n = outs g x) by (unfold outs; now rewrite En). rewrite On.
    destruct (remove_edges_spec x (outs g x) g W) as (g1 & E1 & W1 & L1 & O1 & Os1 & D1); [apply W|auto|].
    rewrite E1. cbn [obind].
    destruct (IH g1 W1) as (g' & E' & W' & L' & O' & D').
    { intros y Y. rewrite L1. apply I. now right. }
    exists g'. split; [auto|]. split; [auto|]. split; [congruence|]. split.
    { intros a. rewrite O'. cbn [existsb]. destruct (existsb (N.eqb a) xs); [now rewrite orb_true_r|].
      rewrite orb_false_r. destruct (N.eqb_spec a x) as [->|Na]; [|auto].
      destruct (outs g1 x) as [|y ys] eqn:Y; auto.
      assert (X : In y (outs g1 x)) by (rewrite Y; now left).
      specialize (Os1 y). simpl in Os1. tauto. }
    intros a. now rewrite D', D1.
Qed.

Definition weighted (wt : N -> N) (g : wgraph) : Prop :=
  forall x d, dat g x = Some d -> d = mkWeight (Some (wt x)) None None.

(** The pruned graph the sweep starts from. *)
Lemma pruned_spec wt (g0 : wgraph) start : wf g0 -> weighted wt g0 -> acyclic (edge g0) ->
  In start (labels g0) ->
  exists ga g1, init_start start g0 = Some ga /\ prune_unreachable_nodes start ga = Some g1 /\
    wf g1 /\ labels g1 = labels g0 /\
    (forall a, outs g1 a = if negb (a =? start) && existsb (N.eqb a) (source_nodes g0) then [] else outs g0 a) /\
    (forall x, from_roots g1 [start] x -> ~ edge g1 x start) /\
    (forall a b l, walk (edge g0) a b l -> a = start \/ ins g0 a <> [] -> walk (edge g1) a b l) /\
    (forall a b, edge g1 a b -> edge g0 a b) /\
    inv g1 [start] g1 [start] [] /\ winv wt start g1 g1 [].
Proof.
  intros W0 Wt Ac Ls. pose proof Ls as Ls'. apply g_get_in in Ls'. destruct Ls' as [n En].
  unfold init_start. rewrite En. cbn [obind].
  set (ga := update_data start mark_start g0).
  pose proof (update_shape start mark_start g0) as Sh. fold ga in Sh.
  pose proof (same_shape_wf _ _ Sh W0) as Wa. destruct Sh as (La & Oa & Ia).
  assert (Src : source_nodes ga = source_nodes g0).
  { unfold source_nodes, ga, update_data, g_update. clear. induction g0 as [|m g IH]; auto. cbn [map filter].
    destruct (n_label m =? start).
    - unfold is_source, has_incoming, set_data at 1. cbn [n_in]. 
      destruct (n_in m); cbn [negb map n_label set_data]; [f_equal|]; apply IH.
    - destruct (is_source m); cbn [map]; [f_equal|]; apply IH. }
  destruct (remove_nodes_spec (filter (fun l => negb (l =? start)) (source_nodes g0)) ga Wa)
    as (g1 & E1 & W1 & L1 & O1 & D1).
  { intros x X. apply filter_In in X. destruct X as [X _]. apply source_nodes_in in X; [|apply W0].
    rewrite La. tauto. }
  assert (O : forall a, outs g1 a = if negb (a =? start) && existsb (N.eqb a) (source_nodes g0) then [] else outs g0 a).
  { intros a. rewrite O1, Oa.
    assert (X : existsb (N.eqb a) (filter (fun l => negb (l =? start)) (source_nodes g0)) =
      negb (a =? start) && existsb (N.eqb a) (source_nodes g0)); [|now rewrite X].
    clear. induction (source_nodes g0) as [|y ys IH]; cbn [filter existsb].
    - now rewrite andb_false_r.
    - destruct (N.eqb_spec y start) as [->|Ny]; cbn [negb existsb].
      + rewrite IH. destruct (a =? start); reflexivity.
      + rewrite IH. destruct (N.eqb_spec a y) as [->|Na]; cbn [orb]; auto.
        apply N.eqb_neq in Ny. now rewrite Ny. }
  assert (sub : forall a b, edge g1 a b -> edge g0 a b).
  { intros a b. unfold edge. rewrite O. destruct (_ && _); auto. intros []. }
  assert (NR : forall x, from_roots g1 [start] x -> ~ edge g1 x start).
  { intros x R E. apply (Ac start). apply sub in E.
    destruct R as [[<-|[]]|(r & [<-|[]] & R)].
    - now constructor.
    - eapply leads_snoc; eauto. eapply leads_mono; eauto. }
  exists ga, g1. split; [auto|]. split; [unfold prune_unreachable_nodes; now rewrite Src|].
  split; [auto|]. split; [congruence|].
  split; [auto|]. split; [auto|]. split.
  { intros a b l Wk. induction Wk as [a|a b c l Eab Wk IH]; intros H; [constructor|].
    econstructor.
    - unfold edge. rewrite O. destruct (negb (a =? start) && existsb (N.eqb a) (source_nodes g0)) eqn:B; [|exact Eab].
      apply andb_prop in B. destruct B as [B1 B2]. apply in_existsb in B2.
      apply source_nodes_in in B2; [|apply W0]. destruct H as [->|H]; [|tauto].
      rewrite N.eqb_refl in B1. discriminate.
    - apply IH. right. intros Z. apply (wf_sym _ W0) in Eab. rewrite Z in Eab. destruct Eab. }
  split; [auto|].
  assert (Lg : labels g1 = labels g0) by congruence.
  split.
  - constructor; auto.
    + simpl. constructor; [tauto|constructor].
    + intros x [].
    + simpl. intros x [<-|[]]. congruence.
    + simpl. intros x X. left. auto.
    + intros [|i] a p H; discriminate.
    + simpl. intros x X NX. tauto.
  - assert (Dg : forall x d, dat g1 x = Some d -> d = mkWeight (Some (wt x)) None (if x =? start then Some 0 else None)).
    { intros x d X. rewrite D1 in X. unfold ga in X. rewrite dat_update in X.
      destruct (x =? start).
      - destruct (dat g0 x) as [d0|] eqn:D0; [|discriminate]. apply Some_inj in X.
        apply Wt in D0. subst. reflexivity.
      - apply Wt in X. auto. }
    constructor.
    + intros x d X. apply Dg in X. subst. auto.
    + intros x d dep X Y. apply Dg in X. subst. simpl in Y.
      destruct (N.eqb_spec x start) as [->|]; [|discriminate]. apply Some_inj in Y. auto.
    + intros p x [].
    + rewrite <- Lg in Ls. apply dat_label in Ls. destruct Ls as [d Hd]. exists d. split; auto.
      apply Dg in Hd. subst. simpl. now rewrite N.eqb_refl.
Qed.

Lemma shape_step_prem wt start g1 : wf g1 -> (forall x, from_roots g1 [start] x -> ~ edge g1 x start) ->
  (forall g s q sorted g' q' n, inv g1 [start] g (s :: q) sorted -> winv wt start g1 g sorted ->
     g_get s g = Some n -> visit_out relax s (n_out n) g q = Some (g', q') ->
     winv wt start g1 g' (sorted ++ [s])).
Proof. intros W NR g s q sorted g' q' n I V En H. eapply winv_step; eauto. Qed.

(** Soundness: what is returned is a heaviest walk. *)
Lemma max_path_sound wt (g0 : wgraph) start end_ r :
  wf g0 -> weighted wt g0 -> acyclic (edge g0) ->
  compute_max_weight_path g0 start end_ = Some r ->
  exists l, walk (edge g0) start end_ l /\
    wp_path r = map (fun x => (x, wt x)) l /\ wp_total r = wsum wt l /\
    forall l', walk (edge g0) start end_ l' -> wsum wt l' <= wp_total r.
Proof.
  intros W0 Wt Ac H. unfold compute_max_weight_path in H.
  destruct (init_start start g0) as [ga'|] eqn:Ei; [|discriminate]. cbn [obind] in H.
  assert (Ls : In start (labels g0)).
  { apply g_get_in. unfold init_start in Ei. destruct (g_get start g0); eauto. discriminate. }
  destruct (pruned_spec wt g0 start W0 Wt Ac Ls) as
    (ga & g1 & Ei' & Ep & W1 & L1 & O1 & NR & Wk & sub & I & V).
  rewrite Ei' in Ei. apply Some_inj in Ei. subst ga'. rewrite Ep in H. cbn [obind] in H.
  destruct (g_get start g1) as [n1|]; [|discriminate]. cbn [obind] in H.
  destruct (sweep relax _ g1 [start] []) as [[g sorted]|] eqn:S; [|discriminate]. cbn [obind] in H.
  assert (NR' : forall r x, In r [start] -> from_roots g1 [start] x -> ~ edge g1 x r).
  { intros r0 x [<-|[]]. auto. }
  destruct (sweep_inv relax g1 [start] (winv wt start g1) relax_keeps W1 NR'
    (shape_step_prem wt start g1 W1 NR) _ _ _ _ _ _ I V S) as [I' V'].
  destruct (existsb (N.eqb end_) sorted) eqn:Ex; [|discriminate]. apply in_existsb in Ex.
  apply In_nth_error in Ex. destruct Ex as [i Hi].
  unfold construct_path in H.
  destruct (walk_back (length g) g start end_ []) as [path|] eqn:WB; [|discriminate]. cbn [obind] in H.
  destruct (node_total_by_label g end_) as [total|] eqn:T; [|discriminate]. cbn [obind] in H.
  apply Some_inj in H. subst r. cbn [wp_path wp_total].
  unfold node_total_by_label in T. destruct (g_get end_ g) as [ne|] eqn:Ge; [|discriminate].
  cbn [obind] in T.
  assert (De : dat g end_ = Some (n_data ne)) by (unfold dat; now rewrite Ge).
  destruct (w_dep_weight (n_data ne)) as [dep|] eqn:Dw.
  2: { unfold total_weight in T. rewrite Dw in T. discriminate. }
  pose proof (total_weight_some _ _ _ _ Dw (v_weight _ _ _ _ _ V' _ _ De) T) as Ht.
  destruct (winv_walk wt start g1 g [] sorted NR I' V' i end_ _ dep Hi De Dw) as (l & Wl & Sl & Bl).
  assert (Hl : (i <= length g)%nat).
  { assert (A : (i < length sorted)%nat) by (apply nth_error_Some; congruence).
    assert (B : (length sorted <= length (labels g))%nat).
    { apply NoDup_incl_length; [apply (i_nodup _ _ _ _ _ I')|]. intros x X.
      rewrite (i_labels _ _ _ _ _ I'). apply (i_known _ _ _ _ _ I'). auto. }
    unfold labels in B. rewrite map_length in B. lia. }
  rewrite Bl in WB by auto. apply Some_inj in WB. rewrite app_nil_r in WB. subst path.
  exists l. split; [eapply walk_mono; eauto|]. split; [auto|]. split; [lia|].
  intros l' W'. assert (W'' : walk (edge g1) start end_ l') by (apply Wk; auto).
  destruct (winv_max wt start g1 g [] sorted NR I' V' i end_ l' Hi W'') as (d & dep' & A & B & C).
  rewrite De in A. apply Some_inj in A. subst d. rewrite Dw in B. apply Some_inj in B. subst dep'. lia.
Qed.

(** Completeness: a path comes back whenever every fed node the end waits for is reachable. *)
Lemma max_path_found wt (g0 : wgraph) start end_ :
  wf g0 -> weighted wt g0 -> acyclic (edge g0) -> In start (labels g0) ->
  (end_ = start \/ leads (edge g0) start end_) ->
  (forall a b, edge g0 a b -> waits_for (edge g0) start end_ b -> leads (edge g0) start b) ->
  (forall x l, walk (edge g0) start x l -> wsum wt l <= u64_max) ->
  exists r, compute_max_weight_path g0 start end_ = Some r.
Proof.
  intros W0 Wt Ac Ls Re NoU Ov. unfold compute_max_weight_path.
  destruct (pruned_spec wt g0 start W0 Wt Ac Ls) as
    (ga & g1 & Ei' & Ep & W1 & L1 & O1 & NR & Wk & sub & I & V).
  rewrite Ei'. cbn [obind]. rewrite Ep. cbn [obind].
  pose proof Ls as Ls1. rewrite <- L1 in Ls1. apply g_get_in in Ls1. destruct Ls1 as [n1 En1].
  rewrite En1. cbn [obind].
  assert (NR' : forall r x, In r [start] -> from_roots g1 [start] x -> ~ edge g1 x r).
  { intros r0 x [<-|[]]. auto. }
  assert (dep_of : forall g q sorted x, inv g1 [start] g q sorted -> winv wt start g1 g sorted ->
    In x (q ++ sorted) -> exists d dep, dat g x = Some d /\ w_dep_weight d = Some dep).
  { intros g q sorted x I' V' X. destruct (N.eq_dec x start) as [->|Nx].
    - destruct (v_start _ _ _ _ _ V') as (d & A & B). eauto.
    - destruct (i_pop _ _ _ _ _ I' x X) as (p & P1 & P2).
      { intros [Y|[]]. congruence. }
      destruct (v_relaxed _ _ _ _ _ V' p x P2 P1) as (d & dep & t & A & B & _). eauto. }
  assert (tot_of : forall g q sorted x d dep, inv g1 [start] g q sorted -> winv wt start g1 g sorted ->
    dat g x = Some d -> w_dep_weight d = Some dep -> exists t, total_weight d = Some t).
  { intros g q sorted x d dep I' V' A B.
    assert (X : exists l, walk (edge g1) start x l /\ wsum wt l = dep + wt x).
    { destruct (v_dep _ _ _ _ _ V' x d dep A B) as [[-> ->]|(Nx & p & Lp & Ip & Ep' & Tp)].
      - exists [start]. split; [constructor|]. unfold wsum. simpl. lia.
      - apply In_nth_error in Ip. destruct Ip as [j Hj].
        unfold tot in Tp. destruct (dat g p) as [dp|] eqn:Dp; [|discriminate]. cbn [obind] in Tp.
        destruct (w_dep_weight dp) as [depp|] eqn:DDp.
        2: { unfold total_weight in Tp. rewrite DDp in Tp. discriminate. }
        pose proof (total_weight_some _ _ _ _ DDp (v_weight _ _ _ _ _ V' _ _ Dp) Tp) as Ht.
        destruct (winv_walk wt start g1 g q sorted NR I' V' j p dp depp Hj Dp DDp) as (l & Wl & Sl & _).
        exists (l ++ [x]). split; [eapply walk_snoc; eauto|]. rewrite wsum_snoc. lia. }
    destruct X as (l & Wl & Sl).
    assert (Hle : wsum wt l <= u64_max) by (apply (Ov x); eapply walk_mono; eauto).
    unfold total_weight. rewrite B, (v_weight _ _ _ _ _ V' _ _ A). cbn [obind]. unfold add_usize.
    assert (Y : dep + wt x <=? u64_max = true) by (apply N.leb_le; lia). rewrite Y. eauto. }
  assert (Pr : forall g s q sorted n, inv g1 [start] g (s :: q) sorted -> winv wt start g1 g sorted ->
     g_get s g = Some n -> exists r, visit_out relax s (n_out n) g q = Some r).
  { intros g s q sorted n I' V' En.
    assert (On : n_out n = outs g s) by (unfold outs; now rewrite En). rewrite On.
    pose proof (i_wf _ _ _ _ _ I') as Wg.
    assert (Ns : ~ In s (outs g s)).
    { intros X. apply (Ac s). constructor. apply sub. unfold edge. rewrite <- (i_other_out _ _ _ _ _ I'); auto.
      pose proof (i_nodup _ _ _ _ _ I') as ND. simpl in ND. inversion ND; subst.
      rewrite in_app_iff in *. tauto. }
    apply visit_relax_total; auto; [apply Wg|]. right.
    destruct (dep_of _ _ _ s I' V') as (d & dep & A & B); [now left|].
    destruct (tot_of _ _ _ _ _ _ I' V' A B) as [t T]. exists t. unfold tot. rewrite A. auto. }
  destruct (sweep_total relax g1 [start] (winv wt start g1) relax_keeps W1 NR'
    (shape_step_prem wt start g1 W1 NR) Pr (sweep_fuel g1 [start]) g1 [start] [] I V (le_n _))
    as [[g sorted] Sw].
  rewrite Sw. cbn [obind].
  destruct (sweep_inv relax g1 [start] (winv wt start g1) relax_keeps W1 NR'
    (shape_step_prem wt start g1 W1 NR) _ _ _ _ _ _ I V Sw) as [I' V'].
  assert (Ex : In end_ sorted).
  { destruct (in_dec N.eq_dec end_ sorted) as [X|X]; auto. exfalso.
    assert (Ss : In start sorted).
    { pose proof (i_roots _ _ _ _ _ I' start (or_introl eq_refl)) as Y. exact Y. }
    destruct Re as [->|Re]; [tauto|].
    set (U := filter (fun x => negb (existsb (N.eqb x) sorted)) (labels g0)).
    assert (pred : forall u, ~ In u sorted -> leads (edge g0) start u /\ waits_for (edge g0) start end_ u ->
      exists p, (leads (edge g0) start p /\ waits_for (edge g0) start end_ p) /\ ~ In p sorted /\ edge g1 p u).
    { intros u Nu [Lu Fu].
      assert (Hp : exists p, (p = start \/ leads (edge g0) start p) /\ edge g0 p u).
      { clear -Lu. induction Lu as [a b H|a b c H _ (p & [->|P] & E)].
        - exists a. auto.
        - exists b. split; auto. right. now constructor.
        - exists p. split; auto. right. eapply leads_step; eauto. }
      destruct Hp as (p & P1 & P2).
      assert (P3 : edge g1 p u).
      { unfold edge. rewrite O1. destruct (negb (p =? start) && existsb (N.eqb p) (source_nodes g0)) eqn:B; [|exact P2].
        exfalso. apply andb_prop in B. destruct B as [B1 B2]. apply in_existsb in B2.
        apply source_nodes_in in B2; [|apply W0]. destruct P1 as [->|P1].
        - rewrite N.eqb_refl in B1. discriminate.
        - destruct (walk_leads (edge g0) start start [start] (walk_here _ _)) as [_|Z]; [|now apply (Ac start)].
          assert (Q : exists r, edge g0 r p).
          { clear -P1. induction P1; eauto. }
          destruct Q as [r Q]. apply (wf_sym _ W0) in Q. destruct B2 as [_ B2]. rewrite B2 in Q. destruct Q. }
      assert (Lu0 : In u (labels g1)).
      { apply (ins_label g1 p). apply (wf_sym _ W1). auto. }
      destruct (ins g u) as [|p' ps] eqn:Ip.
      - exfalso. destruct (i_done _ _ _ _ _ I' u Lu0 Ip) as [Z|Z]; [|tauto].
        apply (wf_sym _ W1) in P3. rewrite Z in P3. destruct P3.
      - assert (Z : In p' (ins g u)) by (rewrite Ip; now left).
        apply (wf_sym _ (i_wf _ _ _ _ _ I')) in Z.
        assert (Np : ~ In p' sorted).
        { intros Y. rewrite (i_sorted_out _ _ _ _ _ I') in Z by auto. destruct Z. }
        rewrite (i_other_out _ _ _ _ _ I') in Z by auto.
        assert (Fp : waits_for (edge g0) start end_ p').
        { pose proof (sub _ _ Z) as Z0. destruct Fu as [Fn Fu].
          split; [intros ->; tauto|]. right. destruct Fu as [->|Fu].
          - constructor. auto.
          - eapply leads_step; eauto. }
        exists p'. split; [split; auto|split; auto].
        destruct (ins g0 p') as [|r rs] eqn:Rs.
        + destruct (N.eq_dec p' start) as [->|Np']; [tauto|]. exfalso.
          rewrite O1 in Z. assert (Y : In p' (source_nodes g0)).
          { apply source_nodes_in; [apply W0|]. split; auto.
            assert (Y : In p' (labels g1)) by (eapply outs_label; unfold edge in Z; rewrite O1; exact Z).
            rewrite <- L1. exact Y. }
          apply in_existsb in Y. rewrite Y in Z. apply N.eqb_neq in Np'. rewrite Np' in Z. destruct Z.
        + apply (NoU r); auto. apply (wf_sym _ W0). rewrite Rs. now left. }
    set (R := fun x => leads (edge g0) start x /\ waits_for (edge g0) start end_ x).
    assert (cyc : exists x, leads (edge g1) x x).
    { assert (G : forall n, (exists x, leads (edge g1) x x) \/
        exists x l, length (x :: l) = S n /\ NoDup (x :: l) /\ incl (x :: l) (labels g0) /\
          R x /\ ~ In x sorted /\ forall y, In y l -> leads (edge g1) x y).
      { assert (Le : In end_ (labels g0)).
        { assert (Q : exists r, edge g0 r end_) by (clear -Re; induction Re; eauto).
          destruct Q as [r Q]. apply (ins_label g0 r). apply (wf_sym _ W0). auto. }
        induction n as [|n [IH|(x & l & A & B & C & Dd & E & F)]]; auto.
        - right. exists end_, []. repeat split; auto.
          + constructor; [tauto|constructor].
          + intros y [<-|[]]; auto.
          + intros ->. tauto.
          + intros y [].
        - destruct (pred x E Dd) as (p & P1 & P2 & P3).
          destruct (in_dec N.eq_dec p (x :: l)) as [Y|Y].
          + left. exists p. destruct Y as [->|Y]; [now constructor|]. eapply leads_step; eauto.
          + right. exists p, (x :: l). split; [simpl in *; lia|]. split; [now constructor|].
            split; [|split; [auto|split; [auto|]]].
            * intros y [<-|Z]; auto. eapply outs_label. apply sub in P3. exact P3.
            * intros y [<-|Z]; [now constructor|]. eapply leads_step; eauto. }
      destruct (G (length (labels g0))) as [Z|(x & l & A & B & C & _)]; auto.
      pose proof (NoDup_incl_length B C). lia. }
    destruct cyc as [x Z]. apply (Ac x). eapply leads_mono; eauto. }
  pose proof Ex as Ex'. apply in_existsb in Ex'. rewrite Ex'.
  destruct (dep_of _ _ _ end_ I' V') as (d & dep & A & B); [simpl; auto|].
  destruct (tot_of _ _ _ _ _ _ I' V' A B) as [t T].
  apply In_nth_error in Ex. destruct Ex as [i Hi].
  destruct (winv_walk wt start g1 g [] sorted NR I' V' i end_ _ dep Hi A B) as (l & Wl & Sl & Bl).
  unfold construct_path. rewrite Bl.
  - cbn [obind]. unfold node_total_by_label. unfold dat in A. destruct (g_get end_ g); [|discriminate].
    apply Some_inj in A. subst d. cbn [obind]. rewrite T. cbn [obind]. eauto.
  - assert (A1 : (i < length sorted)%nat) by (apply nth_error_Some; congruence).
    assert (B1 : (length sorted <= length (labels g))%nat).
    { apply NoDup_incl_length; [apply (i_nodup _ _ _ _ _ I')|]. intros x X.
      rewrite (i_labels _ _ _ _ _ I'). apply (i_known _ _ _ _ _ I'). auto. }
    unfold labels in B1. rewrite map_length in B1. lia.
Qed.

Lemma max_path_total wt (g0 : wgraph) start end_ :
  wf g0 -> weighted wt g0 -> acyclic (edge g0) -> In start (labels g0) ->
  (end_ = start \/ leads (edge g0) start end_) ->
  (forall a b, edge g0 a b -> b = start \/ leads (edge g0) start b) ->
  (forall x l, walk (edge g0) start x l -> wsum wt l <= u64_max) ->
  exists r, compute_max_weight_path g0 start end_ = Some r.
Proof.
  intros W0 Wt Ac Ls Re NoU Ov. eapply max_path_found; eauto.
  intros a b E [Nb _]. destruct (NoU a b E); tauto.
Qed.

(** ... and only then. *)
Lemma max_path_needs wt (g0 : wgraph) start end_ r :
  wf g0 -> weighted wt g0 -> acyclic (edge g0) ->
  compute_max_weight_path g0 start end_ = Some r ->
  In start (labels g0) /\
  forall a b, edge g0 a b -> waits_for (edge g0) start end_ b -> leads (edge g0) start b.
Proof.
  intros W0 Wt Ac H. unfold compute_max_weight_path in H.
  destruct (init_start start g0) as [ga'|] eqn:Ei; [|discriminate]. cbn [obind] in H.
  assert (Ls : In start (labels g0)).
  { apply g_get_in. unfold init_start in Ei. destruct (g_get start g0); eauto. discriminate. }
  split; [auto|].
  destruct (pruned_spec wt g0 start W0 Wt Ac Ls) as
    (ga & g1 & Ei' & Ep & W1 & L1 & O1 & NR & Wk & sub & I & V).
  rewrite Ei' in Ei. apply Some_inj in Ei. subst ga'. rewrite Ep in H. cbn [obind] in H.
  destruct (g_get start g1) as [n1|]; [|discriminate]. cbn [obind] in H.
  destruct (sweep relax _ g1 [start] []) as [[g sorted]|] eqn:S; [|discriminate]. cbn [obind] in H.
  assert (NR' : forall r x, In r [start] -> from_roots g1 [start] x -> ~ edge g1 x r).
  { intros r0 x [<-|[]]. auto. }
  destruct (sweep_inv relax g1 [start] (winv wt start g1) relax_keeps W1 NR'
    (shape_step_prem wt start g1 W1 NR) _ _ _ _ _ _ I V S) as [I' V'].
  destruct (existsb (N.eqb end_) sorted) eqn:Ex; [|discriminate]. apply in_existsb in Ex.
  clear H S.
  assert (keeps : forall x y, edge g0 x y -> (exists w, edge g0 w x) -> edge g1 x y).
  { intros x y E [w Ew]. unfold edge. rewrite O1.
    destruct (negb (x =? start) && existsb (N.eqb x) (source_nodes g0)) eqn:B; [|exact E].
    exfalso. apply andb_prop in B. destruct B as [_ B2]. apply in_existsb in B2.
    apply source_nodes_in in B2; [|apply W0]. destruct B2 as [_ B2].
    apply (wf_sym _ W0) in Ew. rewrite B2 in Ew. destruct Ew. }
  assert (back : forall x y, In y sorted -> y <> start -> edge g1 x y -> In x sorted).
  { intros x y Iy Ny E. apply In_nth_error in Iy. destruct Iy as [i Hi].
    destruct (i_before _ _ _ _ _ I' i y x Hi) as (j & _ & Hj); auto.
    - intros [Y|[]]. congruence.
    - eapply nth_error_In; eauto. }
  assert (all : forall b, (b = end_ \/ leads (fun x y => edge g0 x y /\ y <> start) b end_) ->
    (exists a, edge g0 a b) -> In b sorted).
  { intros b [->|Lb]; [auto|]. induction Lb as [b c [E N0]|b c d [E N0] Lb IH]; intros A.
    - eapply back; eauto.
    - eapply back; [apply IH| |]; eauto. }
  intros a b E [Nb Fb]. assert (Ib : In b sorted) by (apply all; eauto).
  destruct (i_reach _ _ _ _ _ I' b Ib) as [[Y|[]]|(r' & [<-|[]] & Y)]; [congruence|].
  eapply leads_mono; eauto.
Qed.

(** ** The user's weighted graphs *)

Lemma build_nodes_spec ws : forall g, wf g -> NoDup (map fst ws) ->
  (forall x, In x (map fst ws) -> ~ In x (labels g)) ->
  wf (build_nodes ws g) /\
  (forall x, In x (labels (build_nodes ws g)) <-> In x (map fst ws) \/ In x (labels g)) /\
  (forall a b, edge (build_nodes ws g) a b <-> edge g a b) /\
  (forall x, dat (build_nodes ws g) x =
     if existsb (N.eqb x) (map fst ws) then Some (mkWeight (Some (weight_in ws x)) None None) else dat g x).
Proof.
  induction ws as [|[l w] ws IH]; intros g W ND F; cbn [build_nodes map fst].
  - split; [auto|]. split; [simpl; tauto|]. split; [tauto|]. auto.
  - cbn [map fst] in ND, F. inversion ND as [|? ? N1 N2]; subst.
    destruct (get_or_create_spec default_weight l g W) as (W1 & L1 & O1 & I1 & D1).
    set (g1 := get_or_create default_weight l g) in *.
    pose proof (update_shape l (set_weight w) g1) as Sh.
    pose proof (same_shape_wf _ _ Sh W1) as W2. destruct Sh as (L2 & O2 & I2).
    destruct (IH (update_data l (set_weight w) g1) W2 N2) as (W' & L' & E' & D').
    { intros x X. rewrite L2, L1. intros [->|Y]; [tauto|]. apply (F x); auto. now right. }
    split; [auto|]. split.
    { intros x. rewrite L', L2, L1. simpl. intuition. }
    split.
    { intros a b. rewrite E'. unfold edge. now rewrite O2, O1. }
    intros x. rewrite D'. cbn [existsb weight_in].
    destruct (existsb (N.eqb x) (map fst ws)) eqn:B.
    + rewrite orb_true_r. destruct (N.eqb_spec l x) as [->|]; auto.
      apply in_existsb in B. tauto.
    + rewrite orb_false_r, dat_update, D1. rewrite (N.eqb_sym l x).
      destruct (N.eqb_spec x l) as [->|]; [|destruct (dat g x); auto].
      assert (Z : dat g l = None).
      { destruct (dat g l) eqn:Z; auto. exfalso. apply (F l); [now left|]. apply dat_label. eauto. }
      rewrite Z. reflexivity.
Qed.

Lemma build_edges_spec es : forall g wt, wf g -> weighted wt g ->
  (forall a b, In (a, b) es -> a <> b /\ In a (labels g) /\ In b (labels g)) ->
  exists g', build_edges es g = Some g' /\ wf g' /\ weighted wt g' /\
    (forall x, In x (labels g') <-> In x (labels g)) /\
    (forall a b, edge g' a b <-> In (a, b) es \/ edge g a b).
Proof.
  induction es as [|[s t] es IH]; intros g wt W Wt H; cbn [build_edges].
  - exists g. split; [auto|]. split; [auto|]. split; [auto|]. split; [tauto|]. simpl. tauto.
  - destruct (H s t) as (Ne & Hs & Ht); [now left|].
    destruct (add_edge_spec default_weight s t g W Ne) as (g1 & E1 & W1 & L1 & Ed1 & D1).
    rewrite E1. cbn [obind].
    assert (Dg : forall x, dat g1 x = dat g x).
    { intros x. rewrite D1. destruct (dat g x) eqn:Z; auto.
      destruct (N.eqb_spec x s) as [->|]; [apply dat_label in Hs; destruct Hs; congruence|].
      destruct (N.eqb_spec x t) as [->|]; [apply dat_label in Ht; destruct Ht; congruence|]. auto. }
    assert (Lg : forall x, In x (labels g1) <-> In x (labels g)).
    { intros x. rewrite L1. intuition congruence. }
    destruct (IH g1 wt W1) as (g' & E' & W' & Wt' & L' & Ed').
    { intros x d X. rewrite Dg in X. auto. }
    { intros a b X. rewrite !Lg. apply H. now right. }
    exists g'. split; [auto|]. split; [auto|]. split; [auto|]. split.
    { intros x. rewrite L', Lg. tauto. }
    intros a b. rewrite Ed', Ed1. simpl. split.
    + intros [X|[[-> ->]|X]]; auto.
    + intros [[X|X]|X]; auto. injection X as -> ->. auto.
Qed.

Lemma build_weighted_spec ws es : well_declared ws es ->
  exists g, build_weighted ws es = Some g /\ wf g /\ weighted (weight_in ws) g /\
    (forall x, In x (labels g) <-> In x (map fst ws)) /\
    (forall a b, edge g a b <-> edge_in es a b).
Proof.
  intros [ND H]. unfold build_weighted.
  destruct (build_nodes_spec ws [] wf_empty ND) as (W & L & E & Dt); [simpl; tauto|].
  assert (Lg : forall x, In x (labels (build_nodes ws [])) <-> In x (map fst ws)).
  { intros x. rewrite L. simpl. tauto. }
  destruct (build_edges_spec es (build_nodes ws []) (weight_in ws) W) as (g & E1 & W1 & Wt1 & L1 & Ed1).
  { intros x d X. rewrite Dt in X. destruct (existsb (N.eqb x) (map fst ws)) eqn:B.
    - apply Some_inj in X. auto.
    - discriminate. }
  { intros a b X. rewrite !Lg. auto. }
  exists g. split; [auto|]. split; [auto|]. split; [auto|]. split.
  - intros x. now rewrite L1.
  - intros a b. rewrite Ed1, E. unfold edge_in. split; auto. intros [X|X]; auto. destruct X.
Qed.

(* ------------------------------------------------------------------------- *)
(** * When the cycle search succeeds *)

Lemma backwards_cycle_to (E : N -> N -> Prop) (U : list N) :
  (forall u, In u U -> exists p, In p U /\ E p u) ->
  forall u, In u U -> exists x, leads E x x /\ (x = u \/ leads E x u).
Proof.
  intros H u Hu.
  assert (G : forall n, (exists x, leads E x x /\ (x = u \/ leads E x u)) \/
    exists x l, length (x :: l) = S n /\ NoDup (x :: l) /\ incl (x :: l) U /\
      (forall y, In y l -> leads E x y) /\ (forall y, In y (x :: l) -> y = u \/ leads E y u)).
  { induction n as [|n [IH|(x & l & L & ND & I & P & T)]]; auto.
    - right. exists u, []. split; [auto|]. split; [constructor; [tauto|constructor]|].
      split; [intros y [<-|[]]; auto|]. split; [intros y []|]. intros y [<-|[]]; auto.
    - destruct (H x) as (p & Pp & Ep); [apply I; now left|].
      assert (Tp : p = u \/ leads E p u).
      { destruct (T x (or_introl eq_refl)) as [->|Z]; right; [now constructor|]. eapply leads_step; eauto. }
      destruct (in_dec N.eq_dec p (x :: l)) as [Y|Y].
      + left. exists p. split; auto. destruct Y as [->|Y]; [now constructor|].
        eapply leads_step; eauto.
      + right. exists p, (x :: l). split; [simpl in *; lia|]. split; [now constructor|].
        split; [intros y [<-|Z]; auto|]. split.
        * intros y [<-|Z]; [now constructor|]. eapply leads_step; eauto.
        * intros y [<-|Z]; auto. }
  destruct (G (length U)) as [C|(x & l & L & ND & I & _)]; auto.
  pose proof (NoDup_incl_length ND I). lia.
Qed.

Section Searching.
Context {D : Type}.
Implicit Types g : graph D.

Lemma find_cycle_total g : wf g -> forall fuel x path,
  In x (labels g) -> NoDup path -> incl path (labels g) ->
  (length g < fuel + length path)%nat -> exists r, recur_find_cycle fuel g x path = Some r.
Proof.
  intros W. induction fuel as [|fuel IH]; intros x path Lx ND I F.
  - exfalso. pose proof (NoDup_incl_length ND I) as Y. unfold labels in Y. rewrite map_length in Y. lia.
  - cbn [recur_find_cycle]. destruct (existsb (N.eqb x) path) eqn:Ex; eauto.
    apply notin_existsb in Ex. pose proof Lx as Lx'. apply g_get_in in Lx'. destruct Lx' as [n En].
    rewrite En. cbn [obind].
    assert (sub : forall y, In y (n_out n) -> In y (labels g)).
    { intros y Y. apply (ins_label g x). apply (wf_sym _ W). unfold outs. now rewrite En. }
    induction (n_out n) as [|y ys IHy]; eauto.
    destruct (IH y (x :: path)) as [r R].
    { apply sub. now left. } { now constructor. } { intros z [<-|Z]; auto. } { simpl. lia. }
    rewrite R. cbn [obind]. destruct r; eauto. apply IHy. intros z Z. apply sub. now right.
Qed.

Lemma find_cycle_none g : forall fuel x path, recur_find_cycle fuel g x path = Some None ->
  forall y l, walk (edge g) x y l -> (length l <= fuel)%nat.
Proof.
  induction fuel as [|fuel IH]; intros x path H y l Wl; cbn [recur_find_cycle] in H;
    destruct (existsb (N.eqb x) path); try discriminate.
  destruct (g_get x g) as [n|] eqn:En; [|discriminate]. cbn [obind] in H.
  assert (all : forall z, In z (n_out n) -> recur_find_cycle fuel g z (x :: path) = Some None).
  { clear Wl. induction (n_out n) as [|z zs IHz]; [intros z []|].
    destruct (recur_find_cycle fuel g z (x :: path)) as [[c|]|] eqn:R; cbn [obind] in H; try discriminate.
    intros z' [<-|Z]; auto. }
  inversion Wl as [|? b ? l' Eb Wl']; subst.
  - simpl. lia.
  - assert (Z : In b (n_out n)) by (unfold edge, outs in Eb; now rewrite En in Eb).
    apply all in Z. pose proof (IH _ _ Z _ _ Wl'). simpl. lia.
Qed.

Lemma walk_app (E : N -> N -> Prop) a b c l l' : walk E a b l -> walk E b c l' ->
  exists m, walk E a c m /\ (length m + 1 = length l + length l')%nat.
Proof.
  induction 1 as [a|a b d l Eab Wk IH]; intros H.
  - exists l'. split; auto. simpl. lia.
  - destruct (IH H) as (m & M & L). exists (a :: m). split; [econstructor; eauto|simpl; lia].
Qed.

Lemma leads_walk (E : N -> N -> Prop) a b : leads E a b -> exists l, walk E a b l /\ (2 <= length l)%nat.
Proof.
  induction 1 as [a b H|a b c H _ (l & Wl & L)].
  - exists [a; b]. split; [econstructor; eauto; constructor|simpl; lia].
  - exists (a :: l). split; [econstructor; eauto|simpl; lia].
Qed.

Lemma long_walks (E : N -> N -> Prop) x y : (x = y \/ leads E x y) -> leads E y y ->
  forall n, exists l, walk E x y l /\ (n <= length l)%nat.
Proof.
  intros R C. induction n as [|n (l & Wl & L)].
  - destruct R as [->|R].
    + exists [y]. split; [constructor|simpl; lia].
    + apply leads_walk in R. destruct R as (l & Wl & _). exists l. split; auto. lia.
  - destruct (leads_walk E y y C) as (l' & Wl' & L').
    destruct (walk_app _ _ _ _ _ _ Wl Wl') as (m & Wm & Lm). exists m. split; auto. lia.
Qed.

Lemma min_label_some l : l <> [] -> exists m, min_label l = Some m /\ In m l.
Proof.
  induction l as [|y l IH]; [congruence|]. intros _. unfold min_label. cbn [fold_right].
  change (fold_right _ None l) with (min_label l).
  destruct l as [|z l].
  - exists y. split; auto. now left.
  - destruct IH as (m & E & I); [discriminate|]. rewrite E. exists (N.min y m). split; auto.
    destruct (N.min_spec y m) as [[_ ->]|[_ ->]]; [now left|now right].
Qed.

(** If every node that is fed by a cycle and has outgoing edges leads to a cycle, the search
    finds a chain that runs into itself. *)
Lemma derive_cycle_finds g g' l : wf g -> wf g' -> labels g' = labels g ->
  (forall a b, edge g' a b -> edge g a b) ->
  (forall u, In u (labels g) -> ~ In u l -> exists p, ~ In p l /\ edge g' p u /\ In p (labels g)) ->
  (exists u, In u (labels g) /\ ~ In u l) ->
  (forall u, In u l -> outs g' u = []) ->
  (forall u, ~ In u l -> outs g' u = outs g u) ->
  (forall u p, In u l -> edge g p u -> In p l) ->
  (forall x y, leads (edge g) x x -> x = y \/ leads (edge g) x y -> (exists z, edge g y z) ->
     exists c, leads (edge g) c c /\ (y = c \/ leads (edge g) y c)) ->
  exists c, derive_cycle g' = Some c.
Proof.
  intros W W' L sub pr (u & U1 & U2) SO OO PF H. unfold derive_cycle.
  set (U := filter (fun x => negb (existsb (N.eqb x) l)) (labels g)).
  assert (inU : forall x, In x U <-> In x (labels g) /\ ~ In x l).
  { intros x. unfold U. rewrite filter_In, negb_true_iff, notin_existsb. tauto. }
  assert (predU : forall u, In u U -> exists p, In p U /\ edge g' p u).
  { intros x X. apply inU in X. destruct (pr x) as (p & A & B & C); try tauto.
    exists p. rewrite inU. auto. }
  assert (fwd : forall a b, ~ In a l -> leads (edge g) a b -> leads (edge g') a b /\ ~ In b l).
  { intros a b Na. induction 1 as [a b X|a b c X _ IH].
    - assert (Nb : ~ In b l) by (intros Y; apply Na; eapply PF; eauto).
      split; auto. constructor. unfold edge. now rewrite OO.
    - assert (Nb : ~ In b l) by (intros Y; apply Na; eapply PF; eauto).
      destruct (IH Nb) as [A B]. split; auto. eapply leads_step; [|exact A]. unfold edge. now rewrite OO. }
  set (cands := map n_label (filter (fun n => has_incoming n && has_outgoing n) g')).
  assert (cand : forall m, In m cands -> In m (labels g') /\ (exists a, edge g' a m) /\ (exists b, edge g' m b)).
  { intros m M. unfold cands in M. apply in_map_iff in M. destruct M as (n & <- & M).
    apply filter_In in M. destruct M as [M B]. apply andb_prop in B. destruct B as [B1 B2].
    assert (E : g_get (n_label n) g' = Some n).
    { pose proof (wf_labels _ W') as ND. clear -ND M. unfold g_get. induction g' as [|m g IH]; [destruct M|]. simpl.
      unfold labels in ND. simpl in ND. inversion ND as [|? ? N1 N2]; subst. destruct M as [->|H].
      - now rewrite N.eqb_refl.
      - destruct (N.eqb_spec (n_label m) (n_label n)) as [X|X]; auto.
        exfalso. apply N1. rewrite X. now apply in_map. }
    split; [apply g_get_in; eauto|]. unfold has_incoming, has_outgoing in *. split.
    - destruct (n_in n) as [|a r] eqn:I; [discriminate|]. exists a. apply (wf_sym _ W').
      unfold ins. rewrite E, I. now left.
    - destruct (n_out n) as [|b r] eqn:O; [discriminate|]. exists b. unfold edge, outs. rewrite E, O. now left. }
  assert (candI : forall m a b, edge g' a m -> edge g' m b -> In m cands).
  { intros m a b A B. unfold cands. assert (Lm : In m (labels g')) by (eapply outs_label; eauto).
    apply g_get_in in Lm. destruct Lm as [n En]. pose proof (g_get_some _ _ _ En) as [X Y].
    apply in_map_iff. exists n. split; auto. apply filter_In. split; auto.
    apply (wf_sym _ W') in A. unfold ins in A. unfold edge, outs in B. rewrite En in A, B.
    unfold has_incoming, has_outgoing. destruct (n_in n); [destruct A|]. destruct (n_out n); [destruct B|]. auto. }
  assert (ne : cands <> []).
  { destruct (backwards_cycle (edge g') U predU u) as [x X]; [apply inU; auto|].
    assert (exists a, edge g' a x) as [a A].
    { clear -X. revert X. generalize x at 1. induction 1; eauto. }
    assert (exists b, edge g' x b) as [b B] by (inversion X; eauto).
    pose proof (candI x a b A B) as I. intros Z. rewrite Z in I. destruct I. }
  destruct (min_label_some cands ne) as (m & Em & Im). rewrite Em. cbn [obind].
  destruct (cand m Im) as (Lm & (a & A) & (b & B)).
  destruct (find_cycle_total g' W' (S (length g')) m []) as [r R]; auto.
  { constructor. } { intros x []. } { simpl. lia. }
  rewrite R. cbn [obind]. destruct r as [c|]; eauto. exfalso.
  assert (Nm : ~ In m l) by (intros X; unfold edge in B; rewrite SO in B by auto; destruct B).
  assert (Um : In m U) by (apply inU; rewrite <- L; auto).
  destruct (backwards_cycle_to (edge g') U predU m Um) as (x & X1 & X2).
  destruct (H x m) as (c & C1 & C2).
  { eapply leads_mono; eauto. }
  { destruct X2; auto. right. eapply leads_mono; eauto. }
  { eauto. }
  assert (Nc : ~ In c l /\ (m = c \/ leads (edge g') m c)).
  { destruct C2 as [->|C2]; auto. destruct (fwd _ _ Nm C2). auto. }
  destruct Nc as [Nc Rc]. destruct (fwd _ _ Nc C1) as [C1' _].
  destruct (long_walks (edge g') m c Rc C1' (S (S (length g')))) as (w & Ww & Lw).
  pose proof (find_cycle_none g' _ _ _ R _ _ Ww). lia.
Qed.

End Searching.
