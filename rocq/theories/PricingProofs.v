(** Proofs about pricing: the price of a function bounds what its executions cost. *)
From Coq Require Import String List NArith Arith Bool Lia ZifyBool ZifyNat ZifyN.
From Verif Require Import Base Text GraphModel GraphSpec GraphProofs ProgramModel ProgramSpec ProgramProofs
  PricingModel PricingSpec CfgProofs.
Import ListNotations.
Open Scope list_scope.
Open Scope N_scope.

(* ------------------------------------------------------------------------- *)
(** * The weighted graph of the blocks *)

Definition sub_map (fp fp' : func_price) : Prop := forall k v, assoc k fp = Some v -> assoc k fp' = Some v.

(** What an instruction weighs under final prices. *)
Definition weight_of (p : program) (r : resolver) (pr : func_price) (i : instr) : N :=
  match resolve_op p r pr i with Some x => x | None => 0 end.
Definition weight_ops (w : instr -> N) (l : list instr) : N := fold_right (fun i s => w i + s) 0 l.

Lemma weight_ops_app w a b : weight_ops w (a ++ b) = weight_ops w a + weight_ops w b.
Proof. unfold weight_ops. induction a as [|x a IH]; cbn [app fold_right]; [lia|]. rewrite IH. lia. Qed.

Lemma resolve_mono p r fp pr i x : sub_map fp pr -> resolve_op p r fp i = Some x -> resolve_op p r pr i = Some x.
Proof. intros S H. destruct i; auto. cbn [resolve_op] in *. destruct (nth_error _ _); auto. Qed.

Lemma sum_prices_spec p r fp pr ops : sub_map fp pr -> forall acc s, sum_prices p r fp acc ops = Some s ->
  s = acc + weight_ops (weight_of p r pr) ops.
Proof.
  intros Sb. induction ops as [|i ops IH]; intros acc s H; cbn [sum_prices] in H.
  - apply Some_inj in H. subst. cbn. lia.
  - destruct (resolve_op p r fp i) as [x|] eqn:X; [|discriminate]. cbn [obind] in H.
    unfold add_usize in H. destruct (acc + x <=? u64_max); [|discriminate]. cbn [obind] in H.
    apply IH in H. cbn [weight_ops fold_right]. fold (weight_ops (weight_of p r pr) ops).
    unfold weight_of at 1. rewrite (resolve_mono _ _ _ _ _ _ Sb X). lia.
Qed.

Fixpoint numbered (n : N) (ws : list N) : list (N * N) :=
  match ws with [] => [] | w :: ws => (n, w) :: numbered (n + 1) ws end.
Fixpoint all_edges (n : N) (l : list cblock) : list (N * N) :=
  match l with [] => [] | x :: l => map (fun t => (n, t)) (bl_out x) ++ all_edges (n + 1) l end.
Definition block_weight (w : instr -> N) (x : cblock) : N := weight_ops w (bl_ops x).

Lemma weigh_blocks_spec p r fp pr : sub_map fp pr -> forall l n g g', weigh_blocks p r fp n l g = Some g' ->
  g' = build_nodes (numbered n (map (block_weight (weight_of p r pr)) l)) g.
Proof.
  intros Sb. induction l as [|x l IH]; intros n g g' H; cbn [weigh_blocks] in H.
  - apply Some_inj in H. auto.
  - destruct (sum_prices p r fp 0 (bl_ops x)) as [s|] eqn:X; [|discriminate]. cbn [obind] in H.
    apply (sum_prices_spec _ _ _ pr _ Sb) in X. apply IH in H. subst g' s. reflexivity.
Qed.

Lemma build_edges_app a b : forall g, build_edges (a ++ b) g = let? g := build_edges a g in build_edges b g.
Proof.
  induction a as [|[x y] a IH]; intros g; cbn [app build_edges obind]; auto.
  destruct (add_edge default_weight x y g); cbn [obind]; auto.
Qed.
Lemma link_block_spec n outs : forall g, link_block n outs g = build_edges (map (fun t => (n, t)) outs) g.
Proof.
  induction outs as [|t outs IH]; intros g; cbn [link_block map build_edges]; auto.
  destruct (add_edge default_weight n t g); cbn [obind]; auto.
Qed.
Lemma link_blocks_spec l : forall n g, link_blocks n l g = build_edges (all_edges n l) g.
Proof.
  induction l as [|x l IH]; intros n g; cbn [link_blocks all_edges]; auto.
  rewrite build_edges_app, link_block_spec. destruct (build_edges _ g); cbn [obind]; auto.
Qed.

Lemma numbered_in ws : forall n x, In x (map fst (numbered n ws)) <-> n <= x /\ x < n + nlen ws.
Proof.
  induction ws as [|w ws IH]; intros n x; cbn [numbered map fst In].
  - unfold nlen. cbn. lia.
  - rewrite IH. unfold nlen. cbn [length]. lia.
Qed.
Lemma numbered_nodup ws : forall n, NoDup (map fst (numbered n ws)).
Proof.
  induction ws as [|w ws IH]; intros n; cbn [numbered map fst]; constructor; auto.
  rewrite numbered_in. lia.
Qed.
Lemma numbered_weight ws : forall n x, weight_in (numbered n ws) x =
  if x <? n then 0 else nth (N.to_nat (x - n)) ws 0.
Proof.
  induction ws as [|w ws IH]; intros n x; cbn [numbered weight_in].
  - destruct (x <? n); auto. now destruct (N.to_nat (x - n)).
  - rewrite IH. destruct (N.eqb_spec n x) as [<-|D].
    + rewrite N.ltb_irrefl, N.sub_diag. reflexivity.
    + destruct (N.ltb_spec x n).
      * destruct (N.ltb_spec x (n + 1)); auto; lia.
      * destruct (N.ltb_spec x (n + 1)); [lia|]. replace (N.to_nat (x - n)) with (S (N.to_nat (x - (n + 1)))) by lia.
        reflexivity.
Qed.
Lemma all_edges_in l : forall n x y, In (x, y) (all_edges n l) <->
  exists k, n <= x /\ nth_error l (N.to_nat (x - n)) = Some k /\ In y (bl_out k).
Proof.
  induction l as [|b l IH]; intros n x y; cbn [all_edges].
  - split; [intros []|]. intros (k & _ & H & _). destruct (N.to_nat (x - n)); discriminate.
  - rewrite in_app_iff, in_map_iff, IH. split.
    + intros [(t & Q & I)|(k & L & H & I)].
      * injection Q as <- <-. exists b. rewrite N.sub_diag. split; [lia|]. auto.
      * exists k. split; [lia|]. replace (N.to_nat (x - n)) with (S (N.to_nat (x - (n + 1)))) by lia. auto.
    + intros (k & L & H & I). destruct (N.eq_dec n x) as [<-|D].
      * rewrite N.sub_diag in H. cbn in H. injection H as ->. left. exists y. auto.
      * right. exists k. split; [lia|]. replace (N.to_nat (x - n)) with (S (N.to_nat (x - (n + 1)))) in H by lia. auto.
Qed.
Lemma all_edges_out l x y : In (x, y) (all_edges 0 l) <-> out_edge l x y.
Proof.
  rewrite all_edges_in. unfold out_edge. rewrite N.sub_0_r. split; intros (k & H).
  - exists k. tauto.
  - exists k. split; [lia|tauto].
Qed.

(** The blocks of a function: forward edges, and every block leads to the last. *)
Record fine_blocks (bl : list cblock) : Prop := mkFine {
  fb_size : 0 < nlen bl;
  fb_fwd : forall x y, out_edge bl x y -> x < y /\ y < nlen bl;
  fb_out : forall x, x < nlen bl - 1 -> exists y, out_edge bl x y
}.
Lemma fine_final b : binv b -> cb_jumps b = [] -> cb_depth b = 0 -> fine_blocks (cb_blocks b).
Proof.
  intros B J D. split.
  - exact (bi_size b B).
  - exact (bi_fwd b B).
  - intros x L. destruct (bi_out b B x L) as [X|[(t & X)|(t & X)]]; auto.
    + unfold pend in X. rewrite J in X. destruct X.
    + apply (bi_conts b B) in X. lia.
Qed.
Lemma leads_to_last bl x : fine_blocks bl -> x < nlen bl -> exists l, walk (out_edge bl) x (nlen bl - 1) l.
Proof.
  intros F L. remember (N.to_nat (nlen bl - x)) as m. revert x L Heqm.
  induction m as [m IH] using lt_wf_ind. intros x L Q.
  destruct (N.eq_dec x (nlen bl - 1)) as [->|D]; [eexists; constructor|].
  destruct (fb_out bl F x) as [y X]; [lia|]. destruct (fb_fwd bl F x y X).
  destruct (IH (N.to_nat (nlen bl - y))) with (x := y) as [l W]; auto; [lia|].
  exists (x :: l). econstructor; eauto.
Qed.
Lemma fwd_leads bl x y : fine_blocks bl -> leads (out_edge bl) x y -> x < y.
Proof. intros F. induction 1 as [x y X|x y z X _ IH]; apply (fb_fwd bl F) in X; lia. Qed.
Lemma fwd_acyclic bl : fine_blocks bl -> acyclic (out_edge bl).
Proof. intros F x X. apply (fwd_leads bl _ _ F) in X. lia. Qed.

Definition weight_at (w : instr -> N) (bl : list cblock) (x : N) : N := weight_ops w (ops_in bl x).

Lemma weights_at w bl x : weight_in (numbered 0 (map (block_weight w) bl)) x = weight_at w bl x.
Proof.
  rewrite numbered_weight, N.sub_0_r. destruct (N.ltb_spec x 0); [lia|]. unfold weight_at, ops_in.
  destruct (nth_error bl (N.to_nat x)) as [k|] eqn:K.
  - rewrite nth_indep with (d' := block_weight w k) by (rewrite map_length; apply nth_error_Some; congruence).
    rewrite map_nth, (nth_error_nth _ _ k K). reflexivity.
  - apply nth_error_None in K. rewrite nth_overflow by (rewrite map_length; lia). reflexivity.
Qed.

Lemma wsum_ext w w' l : (forall x, w x = w' x) -> wsum w l = wsum w' l.
Proof. intros H. unfold wsum. induction l; cbn [fold_right]; congruence. Qed.
Lemma walk_ext (P Q : N -> N -> Prop) a b l : (forall x y, P x y <-> Q x y) -> walk P a b l -> walk Q a b l.
Proof. intros H. apply walk_mono. intros. now apply H. Qed.

Lemma graph_spec p r fp pr bl g : fine_blocks bl -> sub_map fp pr -> build_weighted_graph p r fp bl = Some g ->
  wf g /\ weighted (weight_in (numbered 0 (map (block_weight (weight_of p r pr)) bl))) g /\
  (forall x, In x (labels g) <-> x < nlen bl) /\ (forall x y, edge g x y <-> out_edge bl x y).
Proof.
  intros F Sb H. unfold build_weighted_graph in H.
  destruct (weigh_blocks p r fp 0 bl []) as [g0|] eqn:X; [|discriminate]. cbn [obind] in H.
  apply (weigh_blocks_spec _ _ _ pr Sb) in X. subst g0. rewrite link_blocks_spec in H.
  set (ws := numbered 0 (map (block_weight (weight_of p r pr)) bl)) in *.
  assert (Lw : forall x, In x (map fst ws) <-> x < nlen bl).
  { intros x. unfold ws. rewrite numbered_in. unfold nlen. rewrite map_length. lia. }
  destruct (build_weighted_spec ws (all_edges 0 bl)) as (g' & A & B & C & D & E').
  { split; [apply numbered_nodup|]. intros a b I. apply all_edges_out, (fb_fwd bl F) in I. rewrite !Lw. lia. }
  unfold build_weighted in A. rewrite A in H. apply Some_inj in H. subst g'.
  split; [auto|]. split; [auto|]. split; [intros x; rewrite D; apply Lw|].
  intros x y. rewrite E'. apply all_edges_out.
Qed.

(** What a computed price is: the weight of a heaviest walk through the blocks. *)
Lemma compute_spec p r fp pr f v : sub_map fp pr -> compute_func_price p r fp f = Some v ->
  exists body bF, get_func p f = Some body /\ cfg_ops body cfg_new = Some bF /\ binv bF /\ cb_jumps bF = [] /\
    cb_depth bF = 0 /\ fine_blocks (cb_blocks bF) /\
    (exists l, walk (E bF) 0 (current bF) l /\ wsum (weight_at (weight_of p r pr) (cb_blocks bF)) l = v) /\
    forall l, walk (E bF) 0 (current bF) l -> wsum (weight_at (weight_of p r pr) (cb_blocks bF)) l <= v.
Proof.
  intros Sb H. unfold compute_func_price in H.
  destruct (get_func p f) as [body|] eqn:G; [|discriminate]. cbn [obind] in H.
  destruct (build_func_cfg body) as [bl|] eqn:B; [|discriminate]. cbn [obind] in H.
  destruct (build_weighted_graph p r fp bl) as [g|] eqn:W; [|discriminate]. cbn [obind] in H.
  destruct (compute_max_weight_path g 0 (nlen bl - 1)) as [path|] eqn:P; [|discriminate]. cbn [obind] in H.
  apply Some_inj in H. subst v. unfold build_func_cfg in B.
  destruct (cfg_ops body cfg_new) as [bF|] eqn:C; [|discriminate]. cbn [obind] in B.
  destruct (cb_jumps bF) eqn:J; [|discriminate]. destruct (N.eqb_spec (cb_depth bF) 0) as [D|]; [|discriminate].
  apply Some_inj in B. subst bl. destruct (cfg_ops_inv _ _ _ cfg_new_inv C) as [BF _].
  pose proof (fine_final bF BF J D) as F.
  destruct (graph_spec p r fp pr _ _ F Sb W) as (Wg & Wt & _ & Eg).
  assert (Ac : acyclic (edge g)).
  { eapply acyclic_ext; [|exact (fwd_acyclic _ F)]. intros a b. symmetry. apply Eg. }
  destruct (max_path_sound _ g 0 _ path Wg Wt Ac P) as (l & Wl & _ & Tl & Ml).
  exists body, bF. do 6 (split; [auto|]).
  split.
  - exists l. split; [eapply walk_ext; [|exact Wl]; exact Eg|]. rewrite Tl. symmetry. apply wsum_ext. apply weights_at.
  - intros l' Wl'. rewrite <- (wsum_ext _ _ l' (weights_at _ _)). apply Ml. eapply walk_ext; [|exact Wl'].
    intros x y. symmetry. apply Eg.
Qed.

(* ------------------------------------------------------------------------- *)
(** * The price list of a program *)

Lemma calls_body_ops p f body : forall g, calls_body p f body g = build_calls (body_ops p f body) g.
Proof.
  induction body as [|i body IH]; intros g; cbn [calls_body body_ops build_calls]; auto.
  destruct i; auto. destruct (is_imported p target); auto. cbn [build_calls].
  destruct (add_call f target g); cbn [obind]; auto.
Qed.
Lemma calls_functions_ops p fs : forall g, calls_functions p fs g = build_calls (program_ops p fs) g.
Proof.
  induction fs as [|[f body] fs IH]; intros g; cbn [calls_functions program_ops]; auto.
  rewrite build_calls_app. cbn [build_calls]. rewrite calls_body_ops.
  destruct (build_calls (body_ops p f body) (add_target f g)); cbn [obind]; auto.
Qed.

Lemma price_functions_spec p r fs : forall fp pr, NoDup fs -> (forall f, In f fs -> assoc f fp = None) ->
  price_functions p r fs fp = Some pr ->
  sub_map fp pr /\
  (forall f v, assoc f pr = Some v -> assoc f fp = Some v \/ In f fs) /\
  forall f, In f fs -> exists fp' v, sub_map fp' pr /\ compute_func_price p r fp' f = Some v /\ assoc f pr = Some v.
Proof.
  induction fs as [|f fs IH]; intros fp pr ND Nw H; cbn [price_functions] in H.
  - apply Some_inj in H. subst. split; [intros k v X; exact X|]. split; [auto|intros f []].
  - destruct (compute_func_price p r fp f) as [v|] eqn:C; [|discriminate]. cbn [obind] in H.
    inversion ND as [|? ? N1 N2]; subst.
    destruct (IH (map_put f v fp) pr N2) as (A & A' & B); auto.
    { intros g I. rewrite assoc_put. destruct (N.eqb_spec g f) as [->|]; [contradiction|]. apply Nw. now right. }
    assert (Sb : sub_map fp pr).
    { intros k x X. apply A. rewrite assoc_put. destruct (N.eqb_spec k f) as [->|]; auto.
      rewrite Nw in X by now left. discriminate. }
    assert (Pf : assoc f pr = Some v) by (apply A; rewrite assoc_put, N.eqb_refl; auto).
    split; [auto|]. split.
    + intros g x X. destruct (A' g x X) as [Y|Y]; [|right; now right]. rewrite assoc_put in Y.
      destruct (N.eqb_spec g f) as [->|]; [right; now left|auto].
    + intros g [<-|I]; [|auto]. exists fp, v. auto.
Qed.

Lemma price_program_spec p r pr : price_program p r = Some pr ->
  acyclic (calls p) /\
  (forall f v, assoc f pr = Some v -> defined p f \/ exists g, calls p g f) /\
  forall f, defined p f \/ (exists g, calls p g f) ->
    exists fp v, sub_map fp pr /\ compute_func_price p r fp f = Some v /\ assoc f pr = Some v.
Proof.
  intros H. unfold price_program in H. rewrite calls_functions_ops in H.
  destruct (build_calls (program_ops p (p_functions p)) []) as [g|] eqn:B; [|discriminate]. cbn [obind] in H.
  assert (NS : no_self_edges (program_ops p (p_functions p))).
  { intros x X. rewrite (build_calls_self _ _ X) in B. discriminate. }
  destruct (build_calls_spec _ [] wf_empty NS) as (g0 & B0 & W & L & Ed).
  rewrite B in B0. apply Some_inj in B0. subst g0. unfold topological_sort in H.
  destruct (sort_spec g false W) as [(l & Es & A & T1 & T2 & _)|(g' & l & _ & _ & _ & _ & _ & _ & _ & _ & _ & Es)];
    rewrite Es in H; cbn [obind] in H; [|discriminate].
  destruct (price_functions_spec p r (rev l) [] pr) as (_ & Dom & P); auto.
  { now apply NoDup_rev. }
  assert (Nl : forall f, In f (rev l) <-> defined p f \/ exists h, calls p h f).
  { intros f. rewrite <- in_rev, T2, L, program_nodes. cbn. tauto. }
  split; [|split].
  - eapply acyclic_ext; [|exact A]. intros a b. rewrite Ed, program_edges. split; auto. intros [X|X]; auto. destruct X.
  - intros f v X. destruct (Dom f v X) as [Y|Y]; [discriminate|]. now apply Nl.
  - intros f D. apply P. now apply Nl.
Qed.

(* ------------------------------------------------------------------------- *)
(** * Executions *)

Section Executions.
Variables (p : program) (r : resolver) (pr : func_price).
Hypothesis priced : price_program p r = Some pr.
Hypothesis lf : loop_free p.

Let w := weight_of p r pr.

(** A frame inside its function's graph: the state of the builder at its position. *)
Record placed (fr : frame) (b bF : builder) : Prop := mkPlaced {
  pl_body : exists q, get_func p (fr_func fr) = Some (q ++ fr_code fr) /\ cfg_ops q cfg_new = Some b;
  pl_rest : cfg_ops (fr_code fr) b = Some bF;
  pl_depth : cb_depth b = 1 + nlen (fr_labels fr)
}.
(** [v] covers everything the frame can still execute. *)
Definition covers (b bF : builder) (v : N) : Prop :=
  forall l, walk (E bF) (current b) (current bF) l ->
    wsum (weight_at w (cb_blocks bF)) l <= v + weight_ops w (ops_of b (current b)).
Definition frame_covered (fr : frame) (v : N) : Prop := exists b bF, placed fr b bF /\ covers b bF v.

Lemma placed_inv fr b bF : placed fr b bF -> binv b /\ binv bF /\ grows b bF /\ no_loop (fr_code fr) /\
  (exists v, assoc (fr_func fr) pr = Some v /\
    (forall l, walk (E bF) 0 (current bF) l -> wsum (weight_at w (cb_blocks bF)) l <= v)) /\ fine_blocks (cb_blocks bF).
Proof.
  intros [(q & G & C) R D]. destruct (cfg_ops_inv q _ _ cfg_new_inv C) as [B _].
  destruct (cfg_ops_inv _ _ _ B R) as [BF Gr].
  split; [auto|]. split; [auto|]. split; [auto|]. split.
  - intros L. apply (proj1 lf (fr_func fr)). exists (q ++ fr_code fr). split; [now apply assoc_in|].
    apply in_or_app. auto.
  - destruct (price_program_spec p r pr priced) as (_ & _ & P).
    destruct (P (fr_func fr)) as (fp & v & Sb & Cf & A).
    { left. unfold defined. apply assoc_in in G. apply in_map_iff. eexists (_, _). split; [|exact G]. reflexivity. }
    destruct (compute_spec p r fp pr _ _ Sb Cf) as (body & bF' & G' & C' & BF' & J & D0 & F & _ & M).
    rewrite G in G'. apply Some_inj in G'. subst body. rewrite cfg_ops_app, C in C'. cbn [obind] in C'.
    rewrite R in C'. apply Some_inj in C'. subst bF'. split; [|auto]. exists v. auto.
Qed.

Lemma grows_weight b bF x : grows b bF -> weight_ops w (ops_of b x) <= weight_at w (cb_blocks bF) x.
Proof.
  intros [_ _ G]. destruct (G x) as [s X]. unfold weight_at. change (ops_in (cb_blocks bF) x) with (ops_of bF x).
  rewrite X, weight_ops_app. lia.
Qed.

Lemma covers_edge b b2 bF v : grows b bF -> E bF (current b) (current b2) -> covers b bF v -> covers b2 bF v.
Proof.
  intros G X C l W. specialize (C (current b :: l) (walk_next _ _ _ _ _ X W)). cbn [wsum fold_right] in C.
  fold (wsum (weight_at w (cb_blocks bF)) l) in C. pose proof (grows_weight b bF (current b) G). lia.
Qed.
Lemma covers_more b bF v v' : v <= v' -> covers b bF v -> covers b bF v'.
Proof. intros L C l W. specialize (C l W). lia. Qed.

(** Reading [k] from [b], landing at [c] in state [b2]. *)
Lemma placed_move f ls i k b bF b1 c b2 ls2 :
  placed (mkFrame f ls (i :: k)) b bF -> cfg_op i b = Some b1 -> meets k c b1 b2 -> cb_depth b2 = 1 + nlen ls2 ->
  placed (mkFrame f ls2 c) b2 bF /\ grows b2 bF.
Proof.
  intros P X (q' & -> & Y) D. destruct P as [(q & G & C) R _]. cbn [fr_func fr_code fr_labels] in *.
  cbn [cfg_ops] in R. rewrite X in R. cbn [obind] in R. rewrite cfg_ops_app, Y in R. cbn [obind] in R.
  assert (P2 : placed (mkFrame f ls2 c) b2 bF).
  { split; cbn [fr_func fr_code fr_labels]; auto.
    exists (q ++ i :: q'). split; [rewrite <- app_assoc; exact G|].
    rewrite cfg_ops_app, C. cbn [obind cfg_ops]. rewrite X. cbn [obind]. exact Y. }
  split; [auto|]. now apply placed_inv in P2.
Qed.

Lemma placed_next f ls i k b bF : placed (mkFrame f ls (i :: k)) b bF ->
  exists b1, cfg_op i b = Some b1 /\ binv b1 /\ cfg_ops k b1 = Some bF /\ cb_depth b1 = depth_after i (1 + nlen ls).
Proof.
  intros P. destruct (placed_inv _ _ _ P) as (B & _ & _ & _ & _). destruct P as [_ R D]. cbn [fr_func fr_code fr_labels] in *.
  cbn [cfg_ops] in R. destruct (cfg_op i b) as [b1|] eqn:X; [|discriminate]. cbn [obind] in R.
  exists b1. split; [auto|]. destruct (cfg_op_inv i b b1 B X) as [B1 _]. split; [auto|]. split; [auto|].
  rewrite (cfg_op_depth i b b1 B X), D. reflexivity.
Qed.

(** Falling through an instruction that weighs nothing. *)
Lemma covered_fall f ls ls2 i k v : frame_covered (mkFrame f ls (i :: k)) v ->
  (i = If \/ conditional i = true \/ i = End) ->
  depth_after i (1 + nlen ls) = 1 + nlen ls2 -> frame_covered (mkFrame f ls2 k) v.
Proof.
  intros (b & bF & P & C) Hi D. destruct (placed_next _ _ _ _ _ _ P) as (b1 & X & B1 & R & D1).
  destruct (placed_inv _ _ _ P) as (B & _ & G & _).
  destruct (placed_move f ls i k b bF b1 k b1 ls2 P X (meets_here _ _)) as [P1 G1]; [congruence|].
  exists b1, bF. split; [auto|].
  destruct (falls i b b1 B X) as [Q|Q]; [tauto| |].
  - intros l W. rewrite Q in W. specialize (C l W).
    destruct (cfg_op_inv i b b1 B X) as [_ [_ _ Go]]. rewrite Q. destruct (Go (current b)) as [s Z].
    rewrite Z, weight_ops_app. lia.
  - eapply covers_edge; [exact G| |exact C]. now apply (gr_E _ _ G1).
Qed.

(** Going on after an instruction that is recorded in its block. *)
Lemma covered_plain f ls ls2 i k v : frame_covered (mkFrame f ls (i :: k)) v ->
  plain i = true -> depth_after i (1 + nlen ls) = 1 + nlen ls2 ->
  w i <= v /\ frame_covered (mkFrame f ls2 k) (v - w i).
Proof.
  intros (b & bF & P & C) Hi D. destruct (placed_next _ _ _ _ _ _ P) as (b1 & X & B1 & R & D1).
  destruct (placed_inv _ _ _ P) as (B & BF & G & _ & _ & F).
  destruct (placed_move f ls i k b bF b1 k b1 ls2 P X (meets_here _ _)) as [P1 G1]; [congruence|].
  destruct (plain_spec i b b1 (bi_size b B) Hi X) as (_ & Sz & Cu & _ & _ & Op & _).
  pose proof (Op (current b)) as Oc. rewrite N.eqb_refl in Oc.
  assert (V : w i <= v).
  { destruct (leads_to_last (cb_blocks bF) (current b) F) as [l W].
    { pose proof (gr_size _ _ G). pose proof (size_current b (bi_size b B)). unfold size in *. lia. }
    specialize (C l W). destruct (walk_head _ _ _ _ W) as [l' ->].
    cbn [wsum fold_right] in C. pose proof (grows_weight b1 bF (current b) G1) as Z.
    rewrite Oc, weight_ops_app in Z. cbn [weight_ops fold_right] in Z. unfold weight_ops in *. lia. }
  split; [auto|]. exists b1, bF. split; [auto|]. intros l W. rewrite Cu in *. specialize (C l W).
  rewrite Oc, weight_ops_app. cbn [weight_ops fold_right] in *. unfold weight_ops in *. lia.
Qed.

(** A taken branch. *)
Lemma covered_branch f ls i k l fr v : frame_covered (mkFrame f ls (i :: k)) v -> frame_ok p (mkFrame f ls (i :: k)) ->
  is_jump i = true -> In l (jump_labels i) -> branch (mkFrame f ls k) l (Some fr) -> frame_covered fr v.
Proof.
  intros (b & bF & P & C) Fo J Il Br. destruct (placed_next _ _ _ _ _ _ P) as (b1 & X & B1 & R & D1).
  destruct (placed_inv _ _ _ P) as (B & BF & G & NL & _).
  assert (Ei : forall n, after_end n (i :: k) = after_end n k) by (intros n; destruct i; try discriminate J; reflexivity).
  destruct (branch_ok p f ls i k l fr Ei Fo Br) as (_ & A & _).
  destruct (jump_spec i b b1 B J X) as (Dj & _ & _ & _ & _ & Jl & _).
  destruct (Jl l Il) as [Ll Pe]. pose proof (pl_depth _ _ _ P) as Db. cbn [fr_labels] in Db.
  inversion Br as [fr0 l0 c Hn|]; subst. cbn [fr_func fr_labels fr_code] in *.
  assert (Lt : (N.to_nat l < length ls)%nat) by (apply nth_error_Some; congruence).
  destruct (after_end_meets k (N.to_nat l) c b1 bF (cb_depth b - l - 1) (current b)) as (b2 & M & E2 & D2); auto.
  { intros Z. apply NL. now right. }
  { rewrite Dj. lia. }
  { left. exact Pe. }
  assert (Ls : nlen (skipn (S (N.to_nat l)) ls) = nlen ls - l - 1).
  { unfold nlen. rewrite skipn_length. lia. }
  destruct (placed_move f ls i k b bF b1 c b2 (skipn (S (N.to_nat l)) ls) P X M) as [P2 G2].
  { rewrite Ls. unfold nlen in *. lia. }
  exists b2, bF. split; [exact P2|]. eapply covers_edge; [exact G| |exact C]. now apply (gr_E _ _ G2).
Qed.

Lemma covered_else f c ls k v : frame_covered (mkFrame f (c :: ls) (Else :: k)) v ->
  frame_ok p (mkFrame f (c :: ls) (Else :: k)) -> frame_covered (mkFrame f ls c) v.
Proof.
  intros (b & bF & P & C) [_ L]. destruct (placed_next _ _ _ _ _ _ P) as (b1 & X & B1 & R & D1).
  destruct (placed_inv _ _ _ P) as (B & BF & G & NL & _).
  pose proof (L O c eq_refl) as A. cbn [fr_code after_end] in A.
  pose proof (pl_depth _ _ _ P) as Db. cbn [fr_labels] in Db.
  destruct (else_spec b b1 B X) as (o & _ & _ & De & _ & _ & _ & Ce & _).
  destruct (after_end_meets k 0 c b1 bF (cb_depth b - 1) (current b)) as (b2 & M & E2 & D2); auto.
  { intros Z. apply NL. now right. }
  { rewrite De. unfold nlen in *. cbn [length] in *. lia. }
  { right. rewrite Ce, N.eqb_refl. reflexivity. }
  destruct (placed_move f (c :: ls) Else k b bF b1 c b2 ls P X M) as [P2 G2].
  { unfold nlen in *. cbn [length] in *. lia. }
  exists b2, bF. split; [exact P2|]. eapply covers_edge; [exact G| |exact C]. now apply (gr_E _ _ G2).
Qed.

Lemma covered_if_false f ls k v fb : frame_covered (mkFrame f ls (If :: k)) v -> on_false 0 k = Some fb ->
  match fb with
  | ToElse k' => forall c, frame_covered (mkFrame f (c :: ls) k') v
  | ToEnd k' => frame_covered (mkFrame f ls k') v
  end.
Proof.
  intros (b & bF & P & C) A. destruct (placed_next _ _ _ _ _ _ P) as (b1 & X & B1 & R & D1).
  destruct (placed_inv _ _ _ P) as (B & BF & G & NL & _).
  pose proof (pl_depth _ _ _ P) as Db. cbn [fr_labels] in Db.
  destruct (if_spec b B) as (Di & _ & _ & _ & Ci & _). pose proof X as X'. cbn [cfg_op] in X'. apply Some_inj in X'.
  rewrite X' in Di, Ci.
  destruct (on_false_meets k 0 fb b1 bF (cb_depth b) (current b)) as (b2 & E2 & M); auto.
  { intros Z. apply NL. now right. }
  { rewrite Di. lia. }
  { rewrite Ci, N.eqb_refl. reflexivity. }
  destruct fb as [k'|k']; destruct M as [M D2].
  - intros c. destruct (placed_move f ls If k b bF b1 k' b2 (c :: ls) P X M) as [P2 G2].
    { unfold nlen in *. cbn [length]. lia. }
    exists b2, bF. split; [exact P2|]. eapply covers_edge; [exact G| |exact C]. now apply (gr_E _ _ G2).
  - destruct (placed_move f ls If k b bF b1 k' b2 ls P X M) as [P2 G2]; [lia|].
    exists b2, bF. split; [exact P2|]. eapply covers_edge; [exact G| |exact C]. now apply (gr_E _ _ G2).
Qed.

(** Entering a function. *)
Lemma covered_enter f body : get_func p f = Some body ->
  exists v, assoc f pr = Some v /\ frame_covered (mkFrame f [] body) v.
Proof.
  intros G. destruct (price_program_spec p r pr priced) as (_ & _ & P).
  destruct (P f) as (fp & v & Sb & Cf & A).
  { left. unfold defined. apply assoc_in in G. apply in_map_iff. eexists (_, _). split; [|exact G]. reflexivity. }
  destruct (compute_spec p r fp pr _ _ Sb Cf) as (body' & bF & G' & C' & BF & J & D0 & F & _ & M).
  rewrite G in G'. apply Some_inj in G'. subst body'. exists v. split; [auto|]. exists cfg_new, bF.
  destruct (cfg_ops_inv _ _ _ cfg_new_inv C') as [_ Gr].
  split.
  - split; cbn [fr_func fr_code fr_labels]; auto. exists []. auto.
  - intros l W. specialize (M (0 :: l)). change (current cfg_new) with 1 in *.
    assert (X : E bF 0 1) by (apply (gr_E _ _ Gr); exists (mkBlock [] [1]); split; [reflexivity|now left]).
    specialize (M (walk_next _ _ _ _ _ X W)). fold w in M. cbn [wsum fold_right] in M.
    fold (wsum (weight_at w (cb_blocks bF)) l) in M. lia.
Qed.

Definition budget (st : list frame) (v : N) : Prop :=
  exists vs, Forall2 frame_covered st vs /\ fold_right N.add 0 vs <= v.

Lemma charge_le i : plain i = true -> (forall g, i <> Call g) -> charge p r i <= w i.
Proof.
  intros P N. unfold charge, w, weight_of. destruct i; try discriminate P; cbn [is_control full_charge resolve_op]; try reflexivity.
  now destruct (N target).
Qed.

Lemma step_budget st i st' v : step p st i st' -> stack_ok p st -> budget st v ->
  charge p r i <= v /\ budget st' (v - charge p r i).
Proof.
  intros H [F K] (vs & F2 & Lv). destruct lf as [NL NC].
  assert (Nil : forall v0, budget [] v0) by (intros; exists []; split; [constructor|cbn; lia]).
  assert (Pop : forall v0 vs0 st0, Forall2 frame_covered st0 vs0 -> v0 + fold_right N.add 0 vs0 <= v -> budget st0 v).
  { intros v0 vs0 st0 A B. exists vs0. split; [auto|lia]. }
  inversion H; subst; inversion F as [|? ? F1 F1']; subst; inversion F2 as [|? v1 ? vr C1 C2]; subst;
    cbn [fold_right] in Lv.
  - (* ordinary *)
    destruct (covered_plain f ls ls (Op o) k v1 C1 eq_refl eq_refl) as [L C].
    assert (Q := charge_le (Op o) eq_refl ltac:(discriminate)).
    split; [lia|]. exists (v1 - w (Op o) :: vr). split; [constructor; auto|cbn [fold_right]; lia].
  - destruct (covered_plain f ls ls (Op o) k v1 C1 eq_refl eq_refl) as [L C].
    assert (Q := charge_le (Op o) eq_refl ltac:(discriminate)). split; [lia|apply Nil].
  - split; [cbn; lia|apply Nil].
  - destruct (covered_plain f ls (c :: ls) Block k v1 C1 eq_refl) as [L C].
    { cbn [depth_after]. unfold nlen. cbn [length]. lia. }
    assert (Q := charge_le Block eq_refl ltac:(discriminate)).
    split; [lia|]. exists (v1 - w Block :: vr). split; [constructor; auto|cbn [fold_right]; lia].
  - destruct (proj1 F1) as (bd & G & Sf). destruct (NL f). eapply suffix_occurs; eauto.
  - (* if *)
    change (charge p r If) with 0. split; [lia|]. exists (v1 :: vr). split; [|cbn [fold_right]; lia]. constructor; auto.
    eapply covered_fall; [exact C1|auto|]. cbn [depth_after]. unfold nlen. cbn [length]. lia.
  - change (charge p r If) with 0. split; [lia|]. exists (v1 :: vr). split; [|cbn [fold_right]; lia]. constructor; auto.
    exact (covered_if_false f ls k v1 _ C1 H1 c).
  - change (charge p r If) with 0. split; [lia|]. exists (v1 :: vr). split; [|cbn [fold_right]; lia]. constructor; auto.
    exact (covered_if_false f ls k v1 _ C1 H0).
  - change (charge p r Else) with 0. split; [lia|]. exists (v1 :: vr). split; [|cbn [fold_right]; lia]. constructor; auto.
    exact (covered_else f c ls k v1 C1 F1).
  - change (charge p r End) with 0. split; [lia|]. exists (v1 :: vr). split; [|cbn [fold_right]; lia]. constructor; auto.
    eapply covered_fall; [exact C1|auto|]. cbn [depth_after]. unfold nlen. cbn [length]. lia.
  - change (charge p r End) with 0. rewrite N.sub_0_r. split; [lia|]. eapply Pop; eauto.
  - change (charge p r (Br l)) with 0. rewrite N.sub_0_r. split; [lia|]. destruct fr as [fr|]; cbn [push]; [|eapply Pop; eauto].
    exists (v1 :: vr). split; [|cbn [fold_right]; lia]. constructor; auto.
    eapply covered_branch; [exact C1|exact F1|reflexivity|now left|eassumption].
  - change (charge p r (BrIf l)) with 0. rewrite N.sub_0_r. split; [lia|]. destruct fr as [fr|]; cbn [push]; [|eapply Pop; eauto].
    exists (v1 :: vr). split; [|cbn [fold_right]; lia]. constructor; auto.
    eapply covered_branch; [exact C1|exact F1|reflexivity|now left|eassumption].
  - change (charge p r (BrIf l)) with 0. split; [lia|]. exists (v1 :: vr). split; [|cbn [fold_right]; lia]. constructor; auto.
    eapply covered_fall; [exact C1|auto|reflexivity].
  - change (charge p r (BrTable t d)) with 0. rewrite N.sub_0_r. split; [lia|]. destruct fr as [fr|]; cbn [push]; [|eapply Pop; eauto].
    exists (v1 :: vr). split; [|cbn [fold_right]; lia]. constructor; auto.
    eapply covered_branch; [exact C1|exact F1|reflexivity| |eassumption]. exact H0.
  - change (charge p r Return) with 0. rewrite N.sub_0_r. split; [lia|]. eapply Pop; eauto.
  - (* local call *)
    destruct (covered_plain f ls ls (Call g) k v1 C1 eq_refl eq_refl) as [L C].
    destruct (covered_enter g body H1) as (vg & Ag & Cg).
    assert (Im : nth_error (p_imports p) (N.to_nat g) = None) by (apply nth_error_None; unfold nlen in H0; lia).
    assert (Wg : w (Call g) = vg) by (unfold w, weight_of; cbn [resolve_op]; rewrite Im, Ag; reflexivity).
    assert (Q : charge p r (Call g) = 0) by (unfold charge; cbn [is_control full_charge]; now rewrite Im).
    rewrite Q. split; [lia|]. exists (vg :: v1 - w (Call g) :: vr). split; [repeat (constructor; auto)|cbn [fold_right]; lia].
  - destruct (covered_plain f ls ls (Call g) k v1 C1 eq_refl eq_refl) as [L C].
    assert (Q : charge p r (Call g) <= w (Call g)).
    { unfold charge, w, weight_of; cbn [is_control full_charge resolve_op]. destruct (nth_error _ _); [reflexivity|lia]. }
    split; [lia|]. exists (v1 - w (Call g) :: vr). split; [constructor; auto|cbn [fold_right]; lia].
  - destruct (covered_plain f ls ls (Call g) k v1 C1 eq_refl eq_refl) as [L C].
    assert (Q : charge p r (Call g) <= w (Call g)).
    { unfold charge, w, weight_of; cbn [is_control full_charge resolve_op]. destruct (nth_error _ _); [reflexivity|lia]. }
    split; [lia|apply Nil].
  - destruct (proj1 F1) as (bd & G & Sf). destruct (NC f t). eapply suffix_occurs; eauto.
  - destruct (proj1 F1) as (bd & G & Sf). destruct (NC f t). eapply suffix_occurs; eauto.
  - destruct (proj1 F1) as (bd & G & Sf). destruct (NC f t). eapply suffix_occurs; eauto.
Qed.

Lemma run_budget st is st' : run p st is st' -> stack_ok p st -> forall v, budget st v ->
  total_charge (charge p r) is <= v.
Proof.
  induction 1 as [st|st i st1 is st2 S R IH]; intros O v B; cbn [total_charge fold_right]; [lia|].
  destruct (step_budget _ _ _ _ S O B) as [L B1]. specialize (IH (step_ok _ _ _ _ lf O S) _ B1).
  unfold total_charge in IH. lia.
Qed.
End Executions.

Lemma execution_bounded p r pr f st is st' : loop_free p -> price_program p r = Some pr -> enters p f st ->
  run p st is st' -> exists v, assoc f pr = Some v /\ total_charge (charge p r) is <= v.
Proof.
  intros LF Pr En R. pose proof En as (body & G & ->).
  destruct (covered_enter p r pr Pr f body G) as (v & A & C). exists v. split; [auto|].
  eapply (run_budget p r pr Pr LF); [exact R|eapply enters_ok; exact En|].
  exists [v]. split; [repeat constructor; auto|cbn; lia].
Qed.
