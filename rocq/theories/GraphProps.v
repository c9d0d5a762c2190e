(** Properties C33 (cycle detection is exact), C34 (the maximum-weight path is exact) and
    C37 (reported cycles). *)
From Coq Require Import List NArith Bool Lia.
From Verif Require Import Base GraphModel GraphSpec GraphProofs.
Import ListNotations.
Open Scope N_scope.

Lemma no_self_check ops :
  forallb (fun o => match o with AddEdge a b => negb (a =? b) | AddNode _ => true end) ops = true ->
  no_self_edges ops.
Proof.
  intros H x X. rewrite forallb_forall in H. apply H in X. rewrite N.eqb_refl in X. discriminate.
Qed.

(* ------------------------------------------------------------------------- *)
(** * C33 *)

(** Whatever calls are recorded, in whatever order (no function calling itself), cycle
    detection answers, and answers "cycle" exactly when some function leads back to itself. *)
Theorem C33_cycle_detection_exact : forall ops, no_self_edges ops ->
  exists g, build_calls ops [] = Some g /\
    ((find_cycles g false = Some None /\ acyclic (asked_edge ops)) \/
     (find_cycles g false = Some (Some []) /\ exists x, leads (asked_edge ops) x x)).
Proof.
  intros ops NS. destruct (build_calls_spec ops [] wf_empty NS) as (g & E & W & L & Ed).
  exists g. split; [auto|]. unfold find_cycles.
  assert (EE : forall a b, edge g a b <-> asked_edge ops a b).
  { intros a b. rewrite Ed. split; auto. intros [X|X]; auto. destruct X. }
  destruct (sort_spec g false W) as [(l & -> & A & _)|(g' & l & _ & C & _ & _ & _ & _ & _ & _ & _ & ->)];
    cbn [obind].
  - left. split; auto. eapply acyclic_ext; eauto.
  - right. split; auto. destruct C as [x C]. exists x. eapply leads_mono; [|exact C]. intros; now apply EE.
Qed.

(** The sort returns every function once, callers before callees; it succeeds exactly on
    acyclic graphs. *)
Theorem C33_sort_exact : forall ops, no_self_edges ops ->
  exists g, build_calls ops [] = Some g /\
    match topological_sort g with
    | Some l => acyclic (asked_edge ops) /\ topological (asked_node ops) (asked_edge ops) l
    | None => exists x, leads (asked_edge ops) x x
    end.
Proof.
  intros ops NS. destruct (build_calls_spec ops [] wf_empty NS) as (g & E & W & L & Ed).
  exists g. split; [auto|]. unfold topological_sort.
  assert (EE : forall a b, edge g a b <-> asked_edge ops a b).
  { intros a b. rewrite Ed. split; auto. intros [X|X]; auto. destruct X. }
  destruct (sort_spec g false W) as [(l & -> & A & T)|(g' & l & _ & C & _ & _ & _ & _ & _ & _ & _ & ->)];
    cbn [obind].
  - split; [eapply acyclic_ext; eauto|]. destruct T as (T1 & T2 & T3). split; [auto|]. split.
    + intros x. rewrite T2, L. simpl. tauto.
    + intros i j a b Ha Hb X. apply EE in X. eauto.
  - destruct C as [x C]. exists x. eapply leads_mono; [|exact C]. intros; now apply EE.
Qed.

(** A self edge aborts the construction (validation refuses such calls beforehand, C32). *)
Theorem C33_self_edge_aborts : forall ops x, asked_edge ops x x -> build_calls ops [] = None.
Proof. intros. eapply build_calls_self; eauto. Qed.

(** A diamond with a tail, and a graph with a cycle off to the side. *)
Definition ex_dag : list graph_op :=
  [AddNode 5; AddEdge 1 2; AddEdge 1 3; AddEdge 2 4; AddEdge 3 4; AddEdge 4 5].
Definition ex_cyclic : list graph_op :=
  [AddEdge 0 1; AddEdge 7 8; AddEdge 8 9; AddEdge 9 7; AddEdge 1 7].

Example C33_satisfiable_acyclic : no_self_edges ex_dag /\
  exists g l, build_calls ex_dag [] = Some g /\ topological_sort g = Some l /\ length l = 5%nat.
Proof.
  split.
  - apply no_self_check. reflexivity.
  - eexists _, _. split; [vm_compute; reflexivity|]. split; vm_compute; reflexivity.
Qed.

Example C33_satisfiable_cyclic : no_self_edges ex_cyclic /\
  exists g, build_calls ex_cyclic [] = Some g /\ find_cycles g false = Some (Some []).
Proof.
  split.
  - apply no_self_check. reflexivity.
  - eexists. split; vm_compute; reflexivity.
Qed.

(* ------------------------------------------------------------------------- *)
(** * C34 *)

(** Whenever a path is returned, it is a path from start to end, its total is the sum of its
    weights, and no other path from start to end weighs more. *)
Theorem C34_path_exact : forall ws es start end_ g r,
  well_declared ws es -> acyclic (edge_in es) ->
  build_weighted ws es = Some g -> compute_max_weight_path g start end_ = Some r ->
  exists l, walk (edge_in es) start end_ l /\
    wp_path r = map (fun x => (x, weight_in ws x)) l /\ wp_total r = walk_weight ws l /\
    forall l', walk (edge_in es) start end_ l' -> walk_weight ws l' <= wp_total r.
Proof.
  intros ws es start end_ g r Wd Ac B H.
  destruct (build_weighted_spec ws es Wd) as (g0 & B0 & W & Wt & L & Ed).
  rewrite B in B0. apply Some_inj in B0. subst g0.
  assert (Ac' : acyclic (edge g)).
  { eapply acyclic_ext; [|exact Ac]. intros; symmetry; apply Ed. }
  destruct (max_path_sound _ g start end_ r W Wt Ac' H) as (l & A1 & A2 & A3 & A4).
  exists l. split; [eapply walk_mono; [|eauto]; intros; now apply Ed|]. split; [auto|]. split; [auto|].
  intros l' W'. apply A4. eapply walk_mono; [|eauto]. intros; now apply Ed.
Qed.

(** A path is returned exactly when the end is reachable and every node with an incoming
    edge that the end has to wait for is reachable from the start, provided no total
    overflows. *)
Theorem C34_path_found_exactly : forall ws es start end_ g,
  well_declared ws es -> acyclic (edge_in es) -> build_weighted ws es = Some g ->
  (forall x l, walk (edge_in es) start x l -> walk_weight ws l <= u64_max) ->
  ((exists r, compute_max_weight_path g start end_ = Some r) <->
   In start (map fst ws) /\ (end_ = start \/ leads (edge_in es) start end_) /\
   forall a b, edge_in es a b -> waits_for (edge_in es) start end_ b -> leads (edge_in es) start b).
Proof.
  intros ws es start end_ g Wd Ac B Ov.
  destruct (build_weighted_spec ws es Wd) as (g0 & B0 & W & Wt & L & Ed).
  rewrite B in B0. apply Some_inj in B0. subst g0.
  assert (Ac' : acyclic (edge g)).
  { eapply acyclic_ext; [|exact Ac]. intros; symmetry; apply Ed. }
  assert (fw : forall a b, leads (edge_in es) a b <-> leads (edge g) a b).
  { intros a b. split; intros X; (eapply leads_mono; [|exact X]); intros; now apply Ed. }
  assert (wf_ : forall b, waits_for (edge_in es) start end_ b <-> waits_for (edge g) start end_ b).
  { intros b. unfold waits_for. split; intros [X [Y|Y]]; split; auto; right;
      (eapply leads_mono; [|exact Y]); intros x y [P Q]; split; auto; now apply Ed. }
  split.
  - intros [r R]. destruct (max_path_needs _ g start end_ r W Wt Ac' R) as [A1 A2].
    destruct (max_path_sound _ g start end_ r W Wt Ac' R) as (l & Wl & _).
    split; [now apply L|]. split.
    + destruct (walk_leads _ _ _ _ Wl) as [->|X]; auto. right. now apply fw.
    + intros a b E F. apply fw. apply (A2 a); [now apply Ed|now apply wf_].
  - intros (Ls & Re & NoU). apply (max_path_found (weight_in ws)); auto.
    + now apply L.
    + destruct Re; auto. right. now apply fw.
    + intros a b E F. apply fw. apply (NoU a); [now apply Ed|now apply wf_].
    + intros x l X. apply (Ov x). eapply walk_mono; [|exact X]. intros; now apply Ed.
Qed.

(** Without that last condition the computation aborts: two nodes in a row that the start
    does not reach, feeding the end.  Only the first of them is pruned. *)
Theorem C34_every_dag_refuted :
  ~ (forall ws es start end_, well_declared ws es -> acyclic (edge_in es) -> In start (map fst ws) ->
       (end_ = start \/ leads (edge_in es) start end_) ->
       (forall x l, walk (edge_in es) start x l -> walk_weight ws l <= u64_max) ->
       exists g r, build_weighted ws es = Some g /\ compute_max_weight_path g start end_ = Some r).
Proof.
  intros H.
  assert (up : forall a b, edge_in [(0, 3); (1, 2); (2, 3)] a b -> a < b).
  { intros a b X. unfold edge_in in X. simpl in X.
    destruct X as [X|[X|[X|[]]]]; injection X; intros; subst; lia. }
  assert (lup : forall a b, leads (edge_in [(0, 3); (1, 2); (2, 3)]) a b -> a < b).
  { induction 1 as [a b X|a b c X _ IH]; apply up in X; lia. }
  destruct (H [(0, 5); (1, 1); (2, 1); (3, 7)] [(0, 3); (1, 2); (2, 3)] 0 3) as (g & r & A & B).
  - split.
    + simpl. repeat (constructor; [simpl; intuition discriminate|]). constructor.
    + intros a b X. simpl in X. destruct X as [X|[X|[X|[]]]]; injection X; intros; subst; simpl; intuition discriminate.
  - intros x X. apply lup in X. lia.
  - simpl. auto.
  - right. constructor. unfold edge_in. simpl. auto.
  - intros x l X.
    inversion X as [|? b ? m Eb X']; subst.
    + apply N.leb_le. vm_compute. reflexivity.
    + assert (b = 3) as ->.
      { unfold edge_in in Eb. simpl in Eb. destruct Eb as [Y|[Y|[Y|[]]]]; injection Y; intros; subst; auto; discriminate. }
      inversion X' as [|? b ? m' Eb' X'']; subst.
      * apply N.leb_le. vm_compute. reflexivity.
      * exfalso. unfold edge_in in Eb'. simpl in Eb'.
        destruct Eb' as [Y|[Y|[Y|[]]]]; injection Y; intros; subst; discriminate.
  - clear H. assert (build_weighted [(0, 5); (1, 1); (2, 1); (3, 7)] [(0, 3); (1, 2); (2, 3)] =
      Some (match build_weighted [(0, 5); (1, 1); (2, 1); (3, 7)] [(0, 3); (1, 2); (2, 3)] with Some g => g | None => [] end))
      as A' by (vm_compute; reflexivity).
    rewrite A' in A. apply Some_inj in A. subst g. vm_compute in B. discriminate B.
Qed.

(** Unreachable nodes in a row do no harm when the end does not wait for them: 3, 4 and 5
    feed one another but not the end. *)
Example C34_found_satisfiable :
  (forall a b, edge_in [(1, 2); (3, 4); (4, 5)] a b ->
     waits_for (edge_in [(1, 2); (3, 4); (4, 5)]) 1 2 b -> leads (edge_in [(1, 2); (3, 4); (4, 5)]) 1 b) /\
  exists g r, build_weighted [(1, 10); (2, 7); (3, 1); (4, 1); (5, 1)] [(1, 2); (3, 4); (4, 5)] = Some g /\
    compute_max_weight_path g 1 2 = Some r /\ wp_total r = 17.
Proof.
  assert (S2 : forall a e, leads (fun x y => edge_in [(1, 2); (3, 4); (4, 5)] x y /\ y <> 1) a e -> e = 2 -> a = 1).
  { induction 1 as [a b [X _]|a b c [X N1] _ IH]; intros ->; [|now elim (N1 (IH eq_refl))].
    unfold edge_in in X. simpl in X.
    destruct X as [X|[X|[X|[]]]]; [now injection X|discriminate..]. }
  split.
  - intros a b X [Nb [->|Y]].
    + constructor. unfold edge_in. simpl. auto.
    + elim (Nb (S2 _ _ Y eq_refl)).
  - eexists _, _. split; [vm_compute; reflexivity|]. split; vm_compute; reflexivity.
Qed.

(** Two ways from 1 to 4, the heavier one by a lighter first step; node 9 feeds the end but
    is never reached. *)
Definition ex_ws : list (N * N) := [(1, 10); (2, 1); (3, 5); (4, 2); (6, 30); (9, 1000)].
Definition ex_es : list (N * N) := [(1, 2); (1, 3); (2, 6); (6, 4); (3, 4); (9, 4)].

Lemma ex_up a b : edge_in ex_es a b -> (a = 6 /\ b = 4) \/ (a = 9 /\ b = 4) \/ (a < b /\ a < 4).
Proof.
  unfold edge_in, ex_es. simpl. intros H.
  repeat (destruct H as [H|H]; [injection H; intros; subst; lia|]). destruct H.
Qed.

Example C34_satisfiable : well_declared ex_ws ex_es /\ acyclic (edge_in ex_es) /\
  (forall a b, edge_in ex_es a b -> b = 1 \/ leads (edge_in ex_es) 1 b) /\
  exists g r, build_weighted ex_ws ex_es = Some g /\ compute_max_weight_path g 1 4 = Some r /\
    wp_total r = 43 /\ map fst (wp_path r) = [1; 2; 6; 4].
Proof.
  split; [|split; [|split]].
  - split.
    + simpl. repeat (constructor; [simpl; intuition discriminate|]). constructor.
    + intros a b X. unfold ex_es in X. simpl in X.
      repeat (destruct X as [X|X]; [injection X; intros; subst; simpl; intuition discriminate|]). destruct X.
  - intros x X.
    assert (no4 : forall b, ~ edge_in ex_es 4 b).
    { intros b Y. apply ex_up in Y. lia. }
    assert (G : forall a b, leads (edge_in ex_es) a b -> b = 4 \/ (a < b /\ a < 4 /\ b <> 4)).
    { induction 1 as [a b E|a b c E L IH].
      - apply ex_up in E. lia.
      - destruct IH as [->|IH]; auto. apply ex_up in E. lia. }
    destruct (G x x X) as [->|]; [|lia].
    inversion X as [? ? Y|? ? ? Y _]; subst; eapply no4; eauto.
  - intros a b X. unfold edge_in, ex_es in X. simpl in X.
    assert (e2 : edge_in ex_es 1 2) by (unfold edge_in, ex_es; simpl; tauto).
    assert (e3 : edge_in ex_es 1 3) by (unfold edge_in, ex_es; simpl; tauto).
    assert (e6 : edge_in ex_es 2 6) by (unfold edge_in, ex_es; simpl; tauto).
    assert (e4 : edge_in ex_es 3 4) by (unfold edge_in, ex_es; simpl; tauto).
    right. repeat (destruct X as [X|X]; [injection X; intros; subst; eauto using leads|]). destruct X.
  - eexists _, _. split; [vm_compute; reflexivity|]. split; [vm_compute; reflexivity|].
    split; vm_compute; reflexivity.
Qed.

(* ------------------------------------------------------------------------- *)
(** * C37 *)

(** When a search for the offending calls reports a list, the list is a chain of calls
    that runs into itself: it ends with a closed chain. *)
Theorem C37_reported_chain_partial : forall ops g c, no_self_edges ops ->
  build_calls ops [] = Some g -> find_cycles g true = Some (Some c) ->
  exists p s, c = p ++ s /\ closed_chain (asked_edge ops) s /\
    exists x y, walk (asked_edge ops) x y c.
Proof.
  intros ops g c NS B H. destruct (build_calls_spec ops [] wf_empty NS) as (g0 & E & W & L & Ed).
  rewrite B in E. apply Some_inj in E. subst g0.
  assert (EE : forall a b, edge g a b -> asked_edge ops a b).
  { intros a b X. apply Ed in X. destruct X as [X|X]; auto. destruct X. }
  unfold find_cycles in H.
  destruct (sort_spec g true W) as [(l & Es & _)|(g' & l & W' & C & sub & _ & _ & _ & _ & _ & _ & Es)];
    rewrite Es in H; cbn [obind] in H; [discriminate|].
  destruct (derive_cycle g') as [c'|] eqn:Dc; cbn [obind] in H; [|discriminate].
  apply Some_inj, Some_inj in H. subst c'. unfold derive_cycle in Dc.
  destruct (min_label _) as [m|]; [|discriminate]. cbn [obind] in Dc.
  destruct (recur_find_cycle _ g' m []) as [[c'|]|] eqn:R; cbn [obind] in Dc; try discriminate.
  apply Some_inj in Dc. subst c'.
  destruct (find_cycle_spec g' _ m [] c m (or_introl (conj eq_refl eq_refl)) R) as (last & r & -> & I & Wk).
  assert (Wk' : walk (asked_edge ops) m last (r ++ [last])) by (eapply walk_mono; [|exact Wk]; auto).
  destruct (lasso _ _ _ _ Wk' I) as (p & s & Eq & Cl). exists p, s. eauto.
Qed.

(** The search does report when everything that a cycle calls, and that calls something
    itself, leads to a cycle again. *)
Theorem C37_report_exists_partial : forall ops g, no_self_edges ops ->
  build_calls ops [] = Some g ->
  (exists x, leads (asked_edge ops) x x) ->
  (forall x y, leads (asked_edge ops) x x -> x = y \/ leads (asked_edge ops) x y ->
     (exists z, asked_edge ops y z) ->
     exists c, leads (asked_edge ops) c c /\ (y = c \/ leads (asked_edge ops) y c)) ->
  exists c, find_cycles g true = Some (Some c).
Proof.
  intros ops g NS B Cy H. destruct (build_calls_spec ops [] wf_empty NS) as (g0 & E & W & L & Ed).
  rewrite B in E. apply Some_inj in E. subst g0.
  assert (EE : forall a b, edge g a b <-> asked_edge ops a b).
  { intros a b. rewrite Ed. split; auto. intros [X|X]; auto. destruct X. }
  assert (LE : forall a b, leads (edge g) a b <-> leads (asked_edge ops) a b).
  { intros a b. split; intros X; (eapply leads_mono; [|exact X]); intros; now apply EE. }
  unfold find_cycles.
  destruct (sort_spec g true W) as [(l & Es & A & _)|(g' & l & W' & C & sub & L' & pr & ex & SO & OO & PF & Es)].
  - exfalso. destruct Cy as [x X]. apply (A x). now apply LE.
  - rewrite Es. destruct (derive_cycle_finds g g' l W W' L' sub pr ex SO OO PF) as [c Hc].
    + intros x y X Y (z & Z). destruct (H x y) as (c & C1 & C2).
      * now apply LE.
      * destruct Y as [->|Y]; auto. right. now apply LE.
      * exists z. now apply EE.
      * exists c. split; [now apply LE|]. destruct C2 as [->|C2]; auto. right. now apply LE.
    + rewrite Hc. cbn [obind]. eauto.
Qed.

(** A reported list need not be a closed chain of calls: function 1 sits between the cycle
    (2 3) and the cycle (7 8), and is reported although it is on neither. *)
Theorem C37_reported_cycle_refuted :
  ~ (forall ops g c, no_self_edges ops -> build_calls ops [] = Some g ->
       find_cycles g true = Some (Some c) -> closed_chain (asked_edge ops) c).
Proof.
  intros H.
  specialize (H [AddEdge 2 3; AddEdge 3 2; AddEdge 3 1; AddEdge 1 7; AddEdge 7 8; AddEdge 8 7]).
  set (ops := [AddEdge 2 3; AddEdge 3 2; AddEdge 3 1; AddEdge 1 7; AddEdge 7 8; AddEdge 8 7]) in *.
  assert (B : exists g, build_calls ops [] = Some g /\ find_cycles g true = Some (Some [1; 7; 8; 7])).
  { eexists. split; vm_compute; reflexivity. }
  destruct B as (g & B & F).
  assert (NS : no_self_edges ops).
  { apply no_self_check. reflexivity. }
  destruct (H g [1; 7; 8; 7] NS B F) as (x & y & r & Eq & Wk).
  injection Eq as <- <- <-. destruct (walk_last _ _ _ _ Wk) as [[_ X]|(p & l0 & X & _)]; [discriminate|].
  change [1; 7; 8; 7] with ([1; 7; 8] ++ [7]) in X. apply app_inj_tail in X. destruct X as [_ X]. discriminate.
Qed.

(** And with a function between a cycle and a leaf, the search finds nothing and aborts
    (debug_assert; a release build reports an empty list). *)
Theorem C37_report_aborts_refuted :
  ~ (forall ops g, no_self_edges ops -> build_calls ops [] = Some g -> find_cycles g true <> None).
Proof.
  intros H.
  specialize (H [AddEdge 2 3; AddEdge 3 2; AddEdge 3 1; AddEdge 1 0]).
  set (ops := [AddEdge 2 3; AddEdge 3 2; AddEdge 3 1; AddEdge 1 0]) in *.
  assert (B : exists g, build_calls ops [] = Some g /\ find_cycles g true = None).
  { eexists. split; vm_compute; reflexivity. }
  destruct B as (g & B & F).
  apply (H g); auto. apply no_self_check. reflexivity.
Qed.

Example C37_satisfiable : exists g, build_calls ex_cyclic [] = Some g /\
  exists c, find_cycles g true = Some (Some c) /\ length c = 4%nat.
Proof. eexists. split; [vm_compute; reflexivity|]. eexists. split; vm_compute; reflexivity. Qed.

Print Assumptions C33_cycle_detection_exact.
Print Assumptions C33_sort_exact.
Print Assumptions C33_self_edge_aborts.
Print Assumptions C34_path_exact.
Print Assumptions C34_path_found_exactly.
Print Assumptions C34_every_dag_refuted.
Print Assumptions C37_reported_chain_partial.
Print Assumptions C37_report_exists_partial.
Print Assumptions C37_reported_cycle_refuted.
Print Assumptions C37_report_aborts_refuted.
