(** Proofs about pricing: the price of a function is the cost of one of its paths. *)
From Coq Require Import String List NArith Arith Bool Lia ZifyBool ZifyNat ZifyN.
From Verif Require Import Base Text GraphModel GraphSpec GraphProofs ProgramModel ProgramSpec ProgramProofs
  PricingModel PricingSpec CfgProofs PricingProofs PricingTotal.
Import ListNotations.
Open Scope list_scope.
Open Scope N_scope.

(* ------------------------------------------------------------------------- *)
(** * Where an edge of the graph comes from *)

Lemma jump_pend i b b' t x : binv b -> is_jump i = true -> cfg_op i b = Some b' -> In x (pend t b') ->
  In x (pend t b) \/ (x = current b /\
    ((jump_labels i = [] /\ t = 0) \/ exists l, In l (jump_labels i) /\ t = cb_depth b - l - 1)).
Proof.
  intros B J H I.
  assert (P0 : forall t, pend t (add_jump (current b) 0 (create_block b)) = if t =? 0 then pend 0 b ++ [current b] else pend t b).
  { intros t0. unfold pend, add_jump. cbn [cb_jumps with_jumps create_block with_blocks]. rewrite assoc_put. destruct (t0 =? 0); auto. }
  destruct i; try discriminate J; cbn [cfg_op] in H; cbn [jump_labels].
  - apply Some_inj in H. subst b'. rewrite P0 in I. destruct (N.eqb_spec t 0) as [->|]; auto.
    apply in_app_or in I. destruct I as [I|[<-|[]]]; auto.
  - destruct (add_jumps_spec _ _ _ _ H) as (_ & _ & _ & _ & _ & A6 & _).
    destruct (A6 t x I) as [X|(-> & l & Il & ->)]; [left; exact X|right; split; [auto|right; eauto]].
  - destruct (add_jumps (current b) [label] (create_block b)) as [b1|] eqn:X; [|discriminate].
    cbn [obind] in H. apply Some_inj in H. subst b'.
    destruct (add_jumps_spec _ _ _ _ X) as (_ & _ & _ & _ & _ & A6 & _).
    destruct (A6 t x I) as [Y|(-> & l & Il & ->)]; [left; exact Y|right; split; [auto|right; eauto]].
  - destruct (add_jumps_spec _ _ _ _ H) as (_ & _ & _ & _ & _ & A6 & _).
    destruct (A6 t x I) as [X|(-> & l & Il & ->)]; [left; exact X|right; split; [auto|right; eauto]].
  - apply Some_inj in H. subst b'. rewrite P0 in I. destruct (N.eqb_spec t 0) as [->|]; auto.
    apply in_app_or in I. destruct I as [I|[<-|[]]]; auto.
Qed.

Definition open_if (b : builder) (t o : N) : Prop := assoc t (cb_conts b) = Some (mkConts (Some o) (Some o) None).

Lemma waits_lt b t o : binv b -> waits b t o -> o < current b.
Proof.
  intros B [W|W]; [exact (bi_jumps b B _ _ W)|]. apply (bi_conts b B) in W.
  destruct W as (_ & o' & [X|X] & L); [discriminate|]. injection X as <-. exact L.
Qed.
Lemma open_if_lt b t o : binv b -> open_if b t o -> o < current b /\ t < cb_depth b.
Proof.
  intros B W. apply (bi_conts b B) in W. destruct W as (D & o' & [X|X] & L); [|discriminate].
  injection X as <-. auto.
Qed.
Lemma current_no_out b y : binv b -> ~ E b (current b) y.
Proof. intros B X. apply (bi_fwd b B) in X. pose proof (size_current b (bi_size b B)). lia. Qed.

(** The edges one instruction adds to closed blocks. *)
Lemma new_edge i b b1 x y : binv b -> cfg_op i b = Some b1 -> x < current b -> E b1 x y ->
  E b x y \/ (y = current b1 /\ current b < current b1 /\
    ((i = End /\ (waits b (cb_depth b - 1) x \/ open_if b (cb_depth b - 1) x)) \/
     (i = Else /\ open_if b (cb_depth b - 1) x))).
Proof.
  intros B H L X. pose proof (bi_size b B) as Sz. pose proof (size_current b Sz) as Sc.
  destruct (instr_cases i) as [J|[->|[->|[->|P]]]].
  - destruct (jump_spec i b b1 B J H) as (_ & _ & _ & _ & A5 & _). apply A5 in X.
    destruct X as [X|(_ & -> & _)]; [auto|lia].
  - apply Some_inj in H. destruct (if_spec b B) as (_ & _ & _ & _ & _ & A6). rewrite H in A6. apply A6 in X.
    destruct X as [X|(-> & _)]; [auto|lia].
  - destruct (else_spec b b1 B H) as (o & A0 & _ & _ & A3 & _ & _ & _ & A7). apply A7 in X.
    destruct X as [X|(-> & ->)]; [auto|]. right. split; [auto|]. split; [pose proof (size_current b1); lia|].
    right. split; auto.
  - destruct (exit_spec b b1 B H) as (A1 & _ & _ & _ & _ & _ & A6 & A7). apply A7 in X.
    destruct X as [X|(NE & -> & [->|X])]; [auto|lia|]. right. split; [auto|].
    split; [destruct (owner b (cb_depth b - 1) ++ pend (cb_depth b - 1) b); [congruence|pose proof (size_current b1); lia]|].
    left. split; [auto|]. apply in_app_or in X. destruct X as [X|X]; [|left; now left].
    unfold owner in X. destruct (assoc (cb_depth b - 1) (cb_conts b)) as [c|] eqn:C; [|destruct X].
    pose proof C as C'. apply (bi_conts b B) in C'. destruct C' as (_ & o & [->| ->] & _); cbn in X; destruct X as [<-|[]].
    + right. exact C.
    + left. right. exact C.
  - destruct (plain_spec i b b1 Sz P H) as (_ & _ & _ & _ & _ & _ & A7). left. now apply A7.
Qed.

(** What waits after an instruction waited before. *)
Lemma waits_before i b b1 t x : binv b -> cfg_op i b = Some b1 -> x < current b -> waits b1 t x ->
  waits b t x /\ (i = End -> t <> cb_depth b - 1).
Proof.
  intros B H L W. destruct (instr_cases i) as [J|[->|[->|[->|P]]]].
  - split; [|destruct i; discriminate]. destruct W as [W|W].
    + destruct (jump_pend i b b1 t x B J H W) as [X|(-> & _)]; [now left|lia].
    + destruct (jump_spec i b b1 B J H) as (_ & _ & A3 & _). rewrite A3 in W. now right.
  - split; [|discriminate]. apply Some_inj in H. destruct (if_spec b B) as (_ & _ & A3 & _ & A5 & _). rewrite H in *.
    destruct W as [W|W]; [left; unfold pend in *; now rewrite A3 in W|]. rewrite A5 in W.
    destruct (N.eqb_spec t (cb_depth b)); [discriminate|now right].
  - split; [|discriminate]. destruct (else_spec b b1 B H) as (o & A0 & _ & _ & _ & A4 & _ & A6 & _).
    destruct W as [W|W]; [left; unfold pend in *; now rewrite A4 in W|]. rewrite A6 in W.
    destruct (N.eqb_spec t (cb_depth b - 1)); [|now right]. injection W as W. lia.
  - destruct (exit_spec b b1 B H) as (_ & _ & A3 & A4 & _). destruct W as [W|W].
    + rewrite A4 in W. destruct (N.eqb_spec t (cb_depth b - 1)); [destruct W|]. split; [now left|auto].
    + rewrite A3 in W. destruct (N.eqb_spec t (cb_depth b - 1)); [discriminate|]. split; [now right|auto].
  - split; [|intros ->; discriminate]. destruct (plain_spec i b b1 (bi_size b B) P H) as (_ & _ & _ & A4 & A5 & _).
    destruct W as [W|W]; [left; unfold pend in *; now rewrite A4 in W|right; now rewrite A5 in W].
Qed.
Lemma open_if_before i b b1 t x : binv b -> cfg_op i b = Some b1 -> x < current b -> open_if b1 t x ->
  open_if b t x /\ (i = End \/ i = Else -> t <> cb_depth b - 1).
Proof.
  unfold open_if. intros B H L W. destruct (instr_cases i) as [J|[->|[->|[->|P]]]].
  - split; [|destruct i; try discriminate J; intros [?|?]; discriminate].
    destruct (jump_spec i b b1 B J H) as (_ & _ & A3 & _). now rewrite A3 in W.
  - split; [|intros [?|?]; discriminate]. apply Some_inj in H. destruct (if_spec b B) as (_ & _ & _ & _ & A5 & _).
    rewrite H in *. rewrite A5 in W. destruct (N.eqb_spec t (cb_depth b)); [|auto]. injection W as W. lia.
  - destruct (else_spec b b1 B H) as (o & A0 & _ & _ & _ & _ & _ & A6 & _). rewrite A6 in W.
    destruct (N.eqb_spec t (cb_depth b - 1)); [discriminate|auto].
  - destruct (exit_spec b b1 B H) as (_ & _ & A3 & _). rewrite A3 in W.
    destruct (N.eqb_spec t (cb_depth b - 1)); [discriminate|auto].
  - split; [|intros [->| ->]; discriminate]. destruct (plain_spec i b b1 (bi_size b B) P H) as (_ & _ & _ & _ & A5 & _).
    now rewrite A5 in W.
Qed.

(** How control gets from a closed block to a later one. *)
Definition arrives (k c : list instr) (b b2 : builder) : Prop :=
  exists q i b1, k = q ++ i :: c /\ (i = End \/ i = Else) /\ cfg_ops q b = Some b1 /\ cfg_op i b1 = Some b2 /\
    current b1 < current b2.
Lemma arrives_meets k c b b2 : arrives k c b b2 -> meets k c b b2.
Proof.
  intros (q & i & b1 & -> & _ & Q & X & _). exists (q ++ [i]). split; [now rewrite <- app_assoc|].
  rewrite cfg_ops_app, Q. cbn [obind cfg_ops]. now rewrite X.
Qed.
Lemma arrives_cons i k c b b1 b2 : cfg_op i b = Some b1 -> arrives k c b1 b2 -> arrives (i :: k) c b b2.
Proof.
  intros X (q & j & b3 & -> & Hj & Q & Y & L). exists (i :: q), j, b3. split; [reflexivity|]. split; [auto|].
  split; [cbn [cfg_ops]; now rewrite X|auto].
Qed.

Lemma sim_waits s b t o : binv b -> sim s b -> waits b t o -> t < cb_depth b.
Proof.
  intros B [D _ J _] [W|W].
  - rewrite D. apply J. unfold pend in W. destruct (assoc t (cb_jumps b)); [discriminate|destruct W].
  - apply (bi_conts b B) in W. tauto.
Qed.

Lemma edge_origin k : forall s b bF x y, no_loop k -> binv b -> sim s b -> well_nested s k ->
  cfg_ops k b = Some bF -> x < current b -> E bF x y ->
  E b x y \/
  exists t n c b2, cb_depth b = t + 1 + N.of_nat n /\ y = current b2 /\ arrives k c b b2 /\
    ((waits b t x /\ after_end n k = Some c) \/
     (open_if b t x /\ (on_false n k = Some (ToEnd c) \/ on_false n k = Some (ToElse c)))).
Proof.
  induction k as [|i k IH]; intros s b bF x y NL B Si W C L X.
  - apply Some_inj in C. subst bF. auto.
  - cbn [cfg_ops] in C. destruct (cfg_op i b) as [b1|] eqn:Ci; [|discriminate]. cbn [obind] in C.
    assert (NLk : no_loop k) by (intros Z; apply NL; now right).
    assert (NLi : i <> Loop) by (intros ->; apply NL; now left).
    cbn [well_nested] in W. destruct W as [Al W].
    destruct (nested_step i s b B Si NLi Al) as (b1' & Ci' & S1). rewrite Ci in Ci'. apply Some_inj in Ci'. subst b1'.
    destruct (cfg_op_inv i b b1 B Ci) as [B1 G1]. pose proof (cfg_op_depth i b b1 B Ci) as D1.
    assert (L1 : x < current b1).
    { pose proof (gr_size _ _ G1). pose proof (size_current b (bi_size b B)). pose proof (size_current b1 (bi_size b1 B1)). lia. }
    destruct (IH (next_scope i s) b1 bF x y NLk B1 S1 W C L1 X) as [Y|(t & n & c & b2 & D & -> & Ar & Cs)].
    + destruct (new_edge i b b1 x y B Ci L Y) as [Z|(-> & Lc & Cs)]; [auto|]. right.
      assert (D0 : 0 < cb_depth b).
      { destruct Si as [Sd _ _ _]. destruct Al as [NE _]. destruct s; [congruence|]. rewrite nlen_cons in Sd. lia. }
      exists (cb_depth b - 1), O, k, b1. split; [lia|]. split; [auto|].
      split; [exists [], i, b; repeat split; auto; destruct Cs as [[-> _]|[-> _]]; auto|].
      destruct Cs as [(-> & [Wt|Wt])|(-> & Wt)].
      * left. auto.
      * right. auto.
      * right. auto.
    + right. assert (Tl : (waits b1 t x \/ open_if b1 t x) -> t < cb_depth b /\ (i = End -> t <> cb_depth b - 1)).
      { intros [Wt|Wt].
        - destruct (waits_before i b b1 t x B Ci L Wt) as [Wb Ne]. split; [eapply sim_waits; eauto|auto].
        - destruct (open_if_before i b b1 t x B Ci L Wt) as [Wb Ne]. split; [eapply open_if_lt; eauto|auto]. }
      assert (Tl' : t < cb_depth b /\ (i = End -> t <> cb_depth b - 1)) by (apply Tl; destruct Cs as [[? _]|[? _]]; auto).
      clear Tl. destruct Tl' as [Lt Ne].
      exists t, (N.to_nat (cb_depth b - t - 1)), c, b2. split; [lia|]. split; [auto|].
      split; [eapply arrives_cons; eauto|].
      destruct Cs as [(Wt & Ae)|(Wt & Of)].
      * left. destruct (waits_before i b b1 t x B Ci L Wt) as [Wb _]. split; [auto|].
        destruct i; cbn [after_end depth_after] in *; try congruence;
          try (replace (N.to_nat (cb_depth b - t - 1)) with n by lia; exact Ae);
          try (replace (S (N.to_nat (cb_depth b - t - 1))) with n by lia; exact Ae).
        specialize (Ne eq_refl). replace (N.to_nat (cb_depth b - t - 1)) with (S n) by lia. exact Ae.
      * right. destruct (open_if_before i b b1 t x B Ci L Wt) as [Wb Nx]. split; [auto|].
        destruct i; cbn [on_false depth_after] in *; try congruence;
          try (replace (N.to_nat (cb_depth b - t - 1)) with n by lia; exact Of);
          try (replace (S (N.to_nat (cb_depth b - t - 1))) with n by lia; exact Of).
        -- specialize (Nx (or_intror eq_refl)). destruct n as [|n]; [lia|].
           replace (N.to_nat (cb_depth b - t - 1)) with (S n) by lia. exact Of.
        -- specialize (Ne eq_refl). replace (N.to_nat (cb_depth b - t - 1)) with (S n) by lia. exact Of.
Qed.

(* ------------------------------------------------------------------------- *)
(** * Closed blocks keep their operations, new blocks have none *)

Lemma ops_beyond b x : size b <= x -> ops_of b x = [].
Proof.
  intros L. unfold ops_of, ops_in. unfold size, nlen in L.
  now rewrite (proj2 (nth_error_None (cb_blocks b) (N.to_nat x))) by lia.
Qed.
Lemma cfg_op_ops i b b1 : binv b -> cfg_op i b = Some b1 ->
  (forall x, x <> current b -> ops_of b1 x = ops_of b x) /\ (plain i = false -> forall x, ops_of b1 x = ops_of b x).
Proof.
  intros B H. destruct (instr_cases i) as [J|[->|[->|[->|P]]]].
  - destruct (jump_spec i b b1 B J H) as (_ & _ & _ & A4 & _). auto.
  - apply Some_inj in H. destruct (if_spec b B) as (_ & _ & _ & A4 & _). rewrite H in A4. auto.
  - destruct (else_spec b b1 B H) as (o & _ & _ & _ & _ & _ & A5 & _). auto.
  - destruct (exit_spec b b1 B H) as (_ & _ & _ & _ & _ & A5 & _). auto.
  - destruct (plain_spec i b b1 (bi_size b B) P H) as (_ & _ & _ & _ & _ & A6 & _). split; [|congruence].
    intros x N. rewrite A6. destruct (N.eqb_spec x (current b)); congruence.
Qed.
Lemma fresh_ops i b b1 : binv b -> cfg_op i b = Some b1 -> plain i = false -> current b < current b1 ->
  ops_of b1 (current b1) = [].
Proof.
  intros B H P L. rewrite (proj2 (cfg_op_ops i b b1 B H) P). apply ops_beyond.
  pose proof (size_current b (bi_size b B)). lia.
Qed.
Lemma frozen k : forall b bF x, binv b -> cfg_ops k b = Some bF -> x < current b -> ops_of bF x = ops_of b x.
Proof.
  induction k as [|i k IH]; intros b bF x B C L; cbn [cfg_ops] in C; [apply Some_inj in C; now subst|].
  destruct (cfg_op i b) as [b1|] eqn:Ci; [|discriminate]. cbn [obind] in C.
  destruct (cfg_op_inv i b b1 B Ci) as [B1 G1].
  rewrite (IH b1 bF x B1 C).
  - apply (proj1 (cfg_op_ops i b b1 B Ci)). lia.
  - pose proof (gr_size _ _ G1). pose proof (size_current b (bi_size b B)). pose proof (size_current b1 (bi_size b1 B1)). lia.
Qed.
Lemma arrives_fresh k c b b2 : binv b -> arrives k c b b2 -> ops_of b2 (current b2) = [].
Proof.
  intros B (q & i & b1 & -> & Hi & Q & X & L). destruct (cfg_ops_inv _ _ _ B Q) as [B1 _].
  apply (fresh_ops i b1 b2 B1 X); [|exact L]. destruct Hi as [->| ->]; reflexivity.
Qed.

(** Well-nested code stays so. *)
Lemma nested_split q : forall s b b2 c, binv b -> sim s b -> no_loop (q ++ c) -> well_nested s (q ++ c) ->
  cfg_ops q b = Some b2 -> exists s2, sim s2 b2 /\ well_nested s2 c.
Proof.
  induction q as [|i q IH]; intros s b b2 c B Si NL W C; cbn [cfg_ops app] in *.
  - apply Some_inj in C. subst. eauto.
  - destruct (cfg_op i b) as [b1|] eqn:Ci; [|discriminate]. cbn [obind] in C. cbn [well_nested] in W. destruct W as [Al W].
    destruct (nested_step i s b B Si) as (b1' & Ci' & S1); auto.
    { intros ->. apply NL. now left. }
    rewrite Ci in Ci'. apply Some_inj in Ci'. subst b1'. destruct (cfg_op_inv i b b1 B Ci) as [B1 _].
    apply (IH (next_scope i s) b1 b2 c B1 S1); auto. intros Z. apply NL. now right.
Qed.
Lemma nested_after_end k : forall s n, no_loop k -> well_nested s k -> (n < length s)%nat -> exists c, after_end n k = Some c.
Proof.
  induction k as [|i k IH]; intros s n NL W L; cbn [well_nested] in W; [subst; cbn in L; lia|].
  destruct W as [[NE A] W]. assert (NLk : no_loop k) by (intros Z; apply NL; now right).
  destruct i; cbn [after_end next_scope] in *; try (eapply (IH s n); eassumption).
  - apply (IH (InBlock :: s) (S n)); auto. cbn [length]. lia.
  - destruct NL. now left.
  - apply (IH (InThen :: s) (S n)); auto. cbn [length]. lia.
  - destruct A as [s' ->]. apply (IH (InElse :: s') n); auto.
  - destruct n as [|n]; [eauto|]. apply (IH (tl s) n); auto. destruct s; cbn [tl length] in *; lia.
Qed.

(* ------------------------------------------------------------------------- *)
(** * Following a walk through the blocks *)

(** Executions ([false]) and paths ([true]). *)
Inductive prun (p : program) (lenient : bool) : list frame -> list instr -> list frame -> Prop :=
| prun_nil st : prun p lenient st [] st
| prun_step st i st1 is st2 : step p st i st1 -> prun p lenient st1 is st2 -> prun p lenient st (i :: is) st2
| prun_trap f ls k st is st2 : lenient = true -> prun p lenient st is st2 ->
    prun p lenient (mkFrame f ls (Unreachable :: k) :: st) (Unreachable :: is) st2.
Lemma prun_app p len a is b js c : prun p len a is b -> prun p len b js c -> prun p len a (is ++ js) c.
Proof. induction 1; intros H'; cbn [app]; [auto|eapply prun_step; eauto|apply prun_trap; eauto]. Qed.
Lemma prun_run p a is b : prun p false a is b -> run p a is b.
Proof. induction 1; [constructor|econstructor; eauto|discriminate]. Qed.
Lemma prun_path p a is b : prun p true a is b -> path p a is b.
Proof. induction 1; [constructor|econstructor; eauto|apply path_trap; auto]. Qed.

Lemma total_charge_app c a b : total_charge c (a ++ b) = total_charge c a + total_charge c b.
Proof. unfold total_charge. induction a as [|x a IH]; cbn [app fold_right]; lia. Qed.

Section Follow.
Variables (p : program) (r : resolver) (pr : func_price) (len : bool).
Hypothesis lf : loop_free p.
Variables (f : N) (body : list instr) (bF : builder) (st : list frame).
Hypothesis Gf : get_func p f = Some body.
Hypothesis CF : cfg_ops body cfg_new = Some bF.
Hypothesis trap : len = true \/ st = [] \/ ~ In Unreachable body.
Hypothesis callees : forall g rest, In (Call g) body -> nlen (p_imports p) <= g ->
  exists gb is, get_func p g = Some gb /\ prun p len (mkFrame g [] gb :: rest) is rest /\
    total_charge (charge p r) is = weight_of p r pr (Call g).

Let w := weight_of p r pr.

Lemma walk_cases (R : N -> N -> Prop) a b l : walk R a b l ->
  (a = b /\ l = [a]) \/ exists y l', l = a :: l' /\ R a y /\ walk R y b l'.
Proof. destruct 1 as [a|a y c l X W]; [auto|right; eauto]. Qed.
Lemma walk_here_only b a l : binv b -> walk (E b) a (current b) l -> a = current b -> l = [a].
Proof.
  intros B W Q. apply walk_cases in W. destruct W as [[_ ->]|(y & l' & _ & X & _)]; [auto|]. subst a. destruct (current_no_out b y B X).
Qed.

(** Leaving a block. *)
Lemma leave b b1 k l : binv b1 -> cfg_ops k b1 = Some bF -> current b < current b1 ->
  walk (E bF) (current b) (current bF) l ->
  exists y l', E bF (current b) y /\ walk (E bF) y (current bF) l' /\
    wsum (weight_at w (cb_blocks bF)) l = weight_ops w (ops_of b1 (current b)) + wsum (weight_at w (cb_blocks bF)) l'.
Proof.
  intros B1 C L W. destruct (cfg_ops_inv _ _ _ B1 C) as [BF G].
  assert (Lx : current b < current bF).
  { pose proof (gr_size _ _ G). pose proof (size_current b1 (bi_size b1 B1)). pose proof (size_current bF (bi_size bF BF)). lia. }
  apply walk_cases in W. destruct W as [[Q _]|(y & l' & -> & X & W')]; [rewrite Q in Lx; now apply N.lt_irrefl in Lx|]. exists y, l'. split; [auto|]. split; [auto|].
  cbn [wsum fold_right]. fold (wsum (weight_at w (cb_blocks bF)) l'). f_equal.
  unfold weight_at. f_equal. exact (frozen k b1 bF _ B1 C L).
Qed.

Lemma follow n : forall ls k b s l, (length k <= n)%nat -> at_frame p f body (mkFrame f ls k) b -> sim s b -> well_nested s k ->
  walk (E bF) (current b) (current bF) l ->
  exists is, prun p len (mkFrame f ls k :: st) is st /\
    total_charge (charge p r) is + weight_ops w (ops_of b (current b)) = wsum (weight_at w (cb_blocks bF)) l.
Proof.
  induction n as [|n IH]; intros ls k b s l Ln A Si W Wk.
  { destruct k; [|cbn in Ln; lia]. cbn [well_nested] in W. subst s. pose proof (at_depth _ _ _ _ _ A) as D.
    destruct Si as [Sd _ _ _]. cbn [fr_labels] in D. change (nlen (@nil scope)) with 0 in Sd. lia. }
  destruct (at_facts p f body bF Gf lf CF _ _ A) as (B & Cr & Gr & NL). cbn [fr_code] in Cr, NL.
  destruct k as [|i k].
  { cbn [well_nested] in W. subst s. pose proof (at_depth _ _ _ _ _ A) as D.
    destruct Si as [Sd _ _ _]. cbn [fr_labels] in D. change (nlen (@nil scope)) with 0 in Sd. lia. }
  cbn [length] in Ln. pose proof (at_depth _ _ _ _ _ A) as Db. cbn [fr_labels] in Db.
  pose proof (at_ok _ _ _ _ _ A) as Ok. cbn [well_nested] in W. destruct W as [Al W].
  assert (NLk : no_loop k) by (intros Z; apply NL; now right).
  assert (NLi : i <> Loop) by (intros ->; apply NL; now left).
  assert (Inb : In i body).
  { destruct (at_pre _ _ _ _ _ A) as (q & -> & _). cbn [fr_code]. apply in_elt. }
  destruct (nested_step i s b B Si NLi Al) as (b1 & Ci & S1).
  cbn [cfg_ops] in Cr. rewrite Ci in Cr. cbn [obind] in Cr.
  destruct (cfg_op_inv i b b1 B Ci) as [B1 G1]. pose proof (cfg_op_depth i b b1 B Ci) as D1.
  pose proof (size_current b (bi_size b B)) as Sc. pose proof (size_current b1 (bi_size b1 B1)) as Sc1.
  (* going on at [k] *)
  assert (Next : forall ls2 l2, frame_ok p (mkFrame f ls2 k) -> depth_after i (1 + nlen ls) = 1 + nlen ls2 ->
     walk (E bF) (current b1) (current bF) l2 ->
     exists is, prun p len (mkFrame f ls2 k :: st) is st /\
       total_charge (charge p r) is + weight_ops w (ops_of b1 (current b1)) = wsum (weight_at w (cb_blocks bF)) l2).
  { intros ls2 l2 Ok2 D2 W2. apply (IH ls2 k b1 (next_scope i s) l2); auto; [lia|].
    eapply (at_move p f body ls i k b b1 k b1 ls2); eauto; [apply meets_here|]. congruence. }
  (* going on further *)
  assert (Far : forall ls2 c b2 l2, frame_ok p (mkFrame f ls2 c) -> arrives k c b1 b2 -> cb_depth b2 = 1 + nlen ls2 ->
     walk (E bF) (current b2) (current bF) l2 ->
     exists is, prun p len (mkFrame f ls2 c :: st) is st /\
       total_charge (charge p r) is = wsum (weight_at w (cb_blocks bF)) l2).
  { intros ls2 c b2 l2 Ok2 Ar D2 W2. pose proof (arrives_meets _ _ _ _ Ar) as Mt. pose proof Mt as (q & Qk & Cq).
    destruct (nested_split q (next_scope i s) b1 b2 c B1 S1) as (s2 & S2 & N2); auto; [now rewrite <- Qk|now rewrite <- Qk|].
    destruct (IH ls2 c b2 s2 l2) as (is & R & T); auto.
    - rewrite Qk, app_length in Ln. lia.
    - eapply (at_move p f body ls i k b b1 c b2 ls2); eauto.
    - exists is. split; [auto|]. rewrite (arrives_fresh _ _ _ _ B1 Ar) in T. cbn [weight_ops fold_right] in T. lia. }
  (* the end of the body *)
  assert (Last : forall c b2 l2, arrives k c b1 b2 -> cb_depth b2 = 0 -> walk (E bF) (current b2) (current bF) l2 ->
     wsum (weight_at w (cb_blocks bF)) l2 = 0).
  { intros c b2 l2 Ar D2 W2. pose proof (arrives_meets _ _ _ _ Ar) as Mt. pose proof Mt as (q & Qk & Cq).
    destruct (nested_split q (next_scope i s) b1 b2 c B1 S1) as (s2 & S2 & N2); auto; [now rewrite <- Qk|now rewrite <- Qk|].
    assert (s2 = []).
    { destruct S2 as [Sd _ _ _]. destruct s2; auto. rewrite nlen_cons in Sd. lia. }
    subst s2. assert (c = []) by (destruct c; auto; cbn [well_nested] in N2; destruct N2 as [[X _] _]; congruence).
    subst c. rewrite app_nil_r in Qk. subst q. rewrite Cr in Cq. apply Some_inj in Cq. subst b2.
    destruct (cfg_ops_inv _ _ _ B1 Cr) as [BF _]. rewrite (walk_here_only _ _ _ BF W2 eq_refl).
    cbn [wsum fold_right]. unfold weight_at. change (ops_in (cb_blocks bF) (current bF)) with (ops_of bF (current bF)).
    rewrite (arrives_fresh _ _ _ _ B1 Ar). reflexivity. }
  assert (StepOk : forall fr', (forall st0, step p (mkFrame f ls (i :: k) :: st0) i (fr' :: st0)) -> frame_ok p fr').
  { intros fr' Stp. assert (So : stack_ok p [fr']).
    { eapply step_ok; [exact lf| |exact (Stp [])]. split; [constructor; [exact Ok|constructor]|exact I]. }
    destruct So as [So _]. now inversion So. }
  assert (Go : forall fr' is, (forall st0, step p (mkFrame f ls (i :: k) :: st0) i (fr' :: st0)) ->
     prun p len (fr' :: st) is st -> prun p len (mkFrame f ls (i :: k) :: st) (i :: is) st).
  { intros fr' is Stp R. eapply prun_step; [apply Stp|exact R]. }
  destruct (instr_cases i) as [J|[->|[->|[->|P]]]].
  - (* jumps *)
    destruct (jump_spec i b b1 B J Ci) as (Dj & Sj & Cj & Oj & Ej & _).
    assert (Lc : current b < current b1) by lia.
    assert (Ops : ops_of b1 (current b) = ops_of b (current b)) by apply Oj.
    destruct (leave b b1 k l B1 Cr Lc Wk) as (y & l' & X & W' & ->). rewrite Ops.
    assert (Ch : charge p r i = 0) by (destruct i; try discriminate J; reflexivity).
    destruct (edge_origin k _ b1 bF _ y NLk B1 S1 W Cr Lc X) as [Y|(t & m & c & b2 & D & -> & Ar & Cs)].
    + apply Ej in Y. destruct Y as [Y|(Cn & _ & ->)]; [destruct (current_no_out b y B Y)|].
      destruct i; try discriminate Cn.
      assert (Stp : forall st0, step p (mkFrame f ls (BrIf label :: k) :: st0) (BrIf label) (mkFrame f ls k :: st0)) by (intros; constructor).
      destruct (Next ls l') as (is & R & T); [exact (StepOk _ Stp)|reflexivity|auto|].
      exists (BrIf label :: is). split; [eapply Go; eauto|].
      rewrite (fresh_ops (BrIf label) b b1 B Ci eq_refl Lc) in T. cbn [weight_ops fold_right] in T.
      cbn [total_charge fold_right]. fold (total_charge (charge p r) is). fold (weight_ops w (ops_of b (current b))). lia.
    + assert (Wt : In (current b) (pend t b1) /\ after_end m k = Some c).
      { destruct Cs as [([Wt|Wt] & Ae)|(Wt & _)]; [auto| |].
        - rewrite Cj in Wt. assert (Z : waits b t (current b)) by (now right). apply waits_lt in Z; [lia|auto].
        - unfold open_if in Wt. rewrite Cj in Wt. apply open_if_lt in Wt; [lia|auto]. }
      clear Cs. destruct Wt as [Wt Ae].
      assert (D2 : cb_depth b2 = t).
      { assert (Wx : waits b1 t (current b)) by (now left).
        destruct (after_end_meets k m c b1 bF t (current b) NLk B1 Ae Cr D Wx) as (b2' & (q' & Qk' & C') & _ & D').
        pose proof (arrives_meets _ _ _ _ Ar) as (q & Qk & Cq). rewrite Qk in Qk'. apply app_inv_tail in Qk'. subst q'.
        rewrite Cq in C'. apply Some_inj in C'. now subst. }
      assert (Lbl : (jump_labels i = [] /\ t = 0) \/ exists lb, In lb (jump_labels i) /\ m = N.to_nat lb).
      { destruct (jump_pend i b b1 t _ B J Ci Wt) as [Z|(_ & [Z|(lb & Il & Z)])].
        - apply (bi_jumps b B) in Z. lia.
        - auto.
        - right. exists lb. split; [auto|].
          destruct (jump_spec i b b1 B J Ci) as (_ & _ & _ & _ & _ & A6 & _). apply A6 in Il. lia. }
      assert (Leave0 : t = 0 -> step p (mkFrame f ls (i :: k) :: st) i st \/ (i = Unreachable /\ len = true) ->
        exists is, prun p len (mkFrame f ls (i :: k) :: st) is st /\
          total_charge (charge p r) is + weight_ops w (ops_of b (current b)) =
          weight_ops w (ops_of b (current b)) + wsum (weight_at w (cb_blocks bF)) l').
      { intros T0 S. subst t. exists [i]. split.
        - destruct S as [S|[-> Lt]]; [eapply prun_step; [exact S|constructor]|apply prun_trap; [auto|constructor]].
        - rewrite (Last c b2 l' Ar T0 W'). cbn [total_charge fold_right]. lia. }
      destruct (N.eq_dec t 0) as [T0|T0].
      * apply Leave0; [auto|]. destruct Lbl as [[Z _]|(lb & Il & Q)].
        -- destruct i; try discriminate J; try discriminate Z.
           ++ destruct trap as [T|[T|T]]; [right; auto|left; rewrite T; constructor|contradiction].
           ++ left. constructor.
        -- left. assert (Br0 : branch (mkFrame f ls k) lb None) by (apply branch_out; cbn [fr_labels]; unfold nlen in *; lia).
           destruct i; try discriminate J; try (destruct Il; fail); cbn [jump_labels] in Il.
           ++ destruct Il as [<-|[]]. exact (step_br p f ls _ k None st Br0).
           ++ destruct Il as [<-|[]]. exact (step_br_if_taken p f ls _ k None st Br0).
           ++ exact (step_br_table p f ls _ _ lb k None st Il Br0).
      * destruct Lbl as [[_ Z]|(lb & Il & Q)]; [contradiction|].
        assert (Lm : (m < length ls)%nat) by (unfold nlen in *; lia).
        destruct (nth_error ls m) as [c'|] eqn:Hn; [|apply nth_error_None in Hn; lia].
        pose proof (proj2 Ok m c' Hn) as Ae'. cbn [fr_code] in Ae'.
        assert (Ei : after_end m (i :: k) = after_end m k) by (destruct i; try discriminate J; reflexivity).
        rewrite Ei, Ae in Ae'. apply Some_inj in Ae'. subst c'.
        assert (Br1 : branch (mkFrame f ls k) lb (Some (mkFrame f (skipn (S m) ls) c))).
        { subst m. exact (branch_label (mkFrame f ls k) lb c Hn). }
        assert (Stp : forall st0, step p (mkFrame f ls (i :: k) :: st0) i (mkFrame f (skipn (S m) ls) c :: st0)).
        { intros st0. destruct i; try discriminate J; try (destruct Il; fail); cbn [jump_labels] in Il.
          - destruct Il as [<-|[]]. exact (step_br p f ls _ k _ st0 Br1).
          - destruct Il as [<-|[]]. exact (step_br_if_taken p f ls _ k _ st0 Br1).
          - exact (step_br_table p f ls _ _ lb k _ st0 Il Br1). }
        destruct (Far (skipn (S m) ls) c b2 l') as (is & R & T); auto.
        { unfold nlen in *. rewrite skipn_length. lia. }
        exists (i :: is). split; [eapply Go; eauto|].
        cbn [total_charge fold_right]. fold (total_charge (charge p r) is). lia.
  - (* if *)
    destruct (if_spec b B) as (Di & Sz & Ji & Oi & Kt & Ei). pose proof Ci as Ci'. cbn [cfg_op] in Ci'. apply Some_inj in Ci'.
    rewrite Ci' in *. assert (Lc : current b < current b1) by lia.
    destruct (leave b b1 k l B1 Cr Lc Wk) as (y & l' & X & W' & ->). rewrite Oi.
    destruct (nested_after_end k (InThen :: s) 0 NLk W) as (c0 & Ae0); [cbn; lia|].
    destruct (edge_origin k _ b1 bF _ y NLk B1 S1 W Cr Lc X) as [Y|(t & m & c & b2 & D & -> & Ar & Cs)].
    + apply Ei in Y. destruct Y as [Y|(_ & ->)]; [destruct (current_no_out b y B Y)|].
      assert (Stp : forall st0, step p (mkFrame f ls (If :: k) :: st0) If (mkFrame f (c0 :: ls) k :: st0)) by (intros; now constructor).
      destruct (Next (c0 :: ls) l') as (is & R & T); [exact (StepOk _ Stp)|cbn [depth_after]; rewrite nlen_cons; lia|auto|].
      exists (If :: is). split; [eapply Go; eauto|].
      rewrite (fresh_ops If b b1 B Ci eq_refl Lc) in T. cbn [weight_ops fold_right] in T.
      cbn [total_charge fold_right]. fold (total_charge (charge p r) is). change (charge p r If) with 0.
      fold (weight_ops w (ops_of b (current b))). lia.
    + destruct Cs as [([Wt|Wt] & _)|(Wt & Of)].
      * unfold pend in Wt. rewrite Ji in Wt. apply (bi_jumps b B) in Wt. lia.
      * rewrite Kt in Wt. destruct (t =? cb_depth b); [discriminate|].
        assert (Z : waits b t (current b)) by (now right). apply waits_lt in Z; [lia|auto].
      * unfold open_if in Wt. rewrite Kt in Wt. destruct (N.eqb_spec t (cb_depth b)) as [->|].
        2:{ apply open_if_lt in Wt; [lia|auto]. }
        assert (m = 0)%nat by lia. subst m.
        assert (Wx : assoc (cb_depth b) (cb_conts b1) = Some (mkConts (Some (current b)) (Some (current b)) None)).
        { rewrite Kt, N.eqb_refl. reflexivity. }
        pose proof (arrives_meets _ _ _ _ Ar) as (q & Qk & Cq).
        destruct Of as [Of|Of]; destruct (on_false_meets k 0 _ b1 bF (cb_depth b) (current b) NLk B1 Of Cr D Wx) as (b2' & _ & (q' & Qk' & C') & D').
        -- rewrite Qk in Qk'. apply app_inv_tail in Qk'. subst q'. rewrite Cq in C'. apply Some_inj in C'. subst b2'.
           assert (Stp : forall st0, step p (mkFrame f ls (If :: k) :: st0) If (mkFrame f ls c :: st0)) by (intros; now apply step_if_end).
           destruct (Far ls c b2 l') as (is & R & T); auto; [lia|].
           exists (If :: is). split; [eapply Go; eauto|].
           cbn [total_charge fold_right]. fold (total_charge (charge p r) is). change (charge p r If) with 0. lia.
        -- rewrite Qk in Qk'. apply app_inv_tail in Qk'. subst q'. rewrite Cq in C'. apply Some_inj in C'. subst b2'.
           assert (Stp : forall st0, step p (mkFrame f ls (If :: k) :: st0) If (mkFrame f (c0 :: ls) c :: st0)) by (intros; now apply step_if_else).
           destruct (Far (c0 :: ls) c b2 l') as (is & R & T); auto; [rewrite nlen_cons; lia|].
           exists (If :: is). split; [eapply Go; eauto|].
           cbn [total_charge fold_right]. fold (total_charge (charge p r) is). change (charge p r If) with 0. lia.
  - (* else *)
    destruct (else_spec b b1 B Ci) as (o & A0 & L1 & De & Se & Je & Oe & Ke & Ee).
    assert (Lc : current b < current b1) by lia.
    destruct (leave b b1 k l B1 Cr Lc Wk) as (y & l' & X & W' & ->). rewrite Oe.
    destruct ls as [|c' ls]; [unfold nlen in Db; cbn in Db; lia|].
    pose proof (proj2 Ok O c' eq_refl) as Ae'. cbn [fr_code after_end] in Ae'.
    assert (Stp : forall st0, step p (mkFrame f (c' :: ls) (Else :: k) :: st0) Else (mkFrame f ls c' :: st0)) by (intros; constructor).
    destruct (edge_origin k _ b1 bF _ y NLk B1 S1 W Cr Lc X) as [Y|(t & m & c & b2 & D & -> & Ar & Cs)].
    + apply Ee in Y. destruct Y as [Y|(Q & _)]; [destruct (current_no_out b y B Y)|].
      apply (open_if_lt b _ o B) in A0. lia.
    + assert (Wt : t = cb_depth b - 1 /\ after_end m k = Some c).
      { destruct Cs as [([Wt|Wt] & Ae)|(Wt & _)].
        - unfold pend in Wt. rewrite Je in Wt. apply (bi_jumps b B) in Wt. lia.
        - rewrite Ke in Wt. destruct (N.eqb_spec t (cb_depth b - 1)); [auto|].
          assert (Z : waits b t (current b)) by (now right). apply waits_lt in Z; [lia|auto].
        - unfold open_if in Wt. rewrite Ke in Wt. destruct (N.eqb_spec t (cb_depth b - 1)); [discriminate|].
          apply open_if_lt in Wt; [lia|auto]. }
      destruct Wt as [-> Ae]. assert (m = 0)%nat by lia. subst m. rewrite Ae' in Ae. apply Some_inj in Ae. subst c'.
      assert (D2 : cb_depth b2 = cb_depth b - 1).
      { assert (Wx : waits b1 (cb_depth b - 1) (current b)) by (right; rewrite Ke, N.eqb_refl; reflexivity).
        destruct (after_end_meets k 0 c b1 bF _ (current b) NLk B1 Ae' Cr D Wx) as (b2' & (q' & Qk' & C') & _ & D').
        pose proof (arrives_meets _ _ _ _ Ar) as (q & Qk & Cq). rewrite Qk in Qk'. apply app_inv_tail in Qk'. subst q'.
        rewrite Cq in C'. apply Some_inj in C'. now subst. }
      destruct (Far ls c b2 l') as (is & R & T); auto; [rewrite nlen_cons in Db; lia|].
      exists (Else :: is). split; [eapply Go; eauto|].
      cbn [total_charge fold_right]. fold (total_charge (charge p r) is). change (charge p r Else) with 0. lia.
  - (* end *)
    destruct (exit_spec b b1 B Ci) as (A1 & A2 & A3 & A4 & _ & A5 & A6 & A7).
    assert (NW : current b < current b1 -> forall y, E bF (current b) y -> y = current b1).
    { intros Lc y X. destruct (edge_origin k _ b1 bF _ y NLk B1 S1 W Cr Lc X) as [Y|(t & m & c & b2 & D & -> & Ar & Cs)].
      - apply A7 in Y. destruct Y as [Y|(_ & -> & _)]; [destruct (current_no_out b y B Y)|auto].
      - exfalso. destruct Cs as [([Wt|Wt] & _)|(Wt & _)].
        + rewrite A4 in Wt. destruct (t =? _); [destruct Wt|]. apply (bi_jumps b B) in Wt. lia.
        + rewrite A3 in Wt. destruct (t =? _); [discriminate|].
          assert (Z : waits b t (current b)) by (now right). apply waits_lt in Z; [lia|auto].
        + unfold open_if in Wt. rewrite A3 in Wt. destruct (t =? _); [discriminate|].
          apply open_if_lt in Wt; [lia|auto]. }
    assert (Cut : exists l2, walk (E bF) (current b1) (current bF) l2 /\
       wsum (weight_at w (cb_blocks bF)) l + weight_ops w (ops_of b1 (current b1)) =
       weight_ops w (ops_of b (current b)) + wsum (weight_at w (cb_blocks bF)) l2).
    { destruct (N.eq_dec (current b1) (current b)) as [Q|Q].
      - exists l. rewrite Q. split; [auto|]. rewrite A5. lia.
      - assert (Lc : current b < current b1).
        { pose proof (gr_size _ _ G1). lia. }
        destruct (leave b b1 k l B1 Cr Lc Wk) as (y & l' & X & W' & Q'). apply (NW Lc) in X. subst y.
        exists l'. split; [auto|]. rewrite Q', A5. rewrite (fresh_ops End b b1 B Ci eq_refl Lc). cbn [weight_ops fold_right]. lia. }
    destruct Cut as (l2 & W2 & T2).
    destruct ls as [|c ls].
    + exists [End]. split; [eapply prun_step; [apply step_finish|constructor]|].
      cbn [total_charge fold_right]. change (charge p r End) with 0.
      assert (D0 : cb_depth b1 = 0) by (rewrite A2, Db; reflexivity).
      assert (Es : next_scope End s = []).
      { destruct S1 as [Sd _ _ _]. destruct (next_scope End s); auto. rewrite nlen_cons in Sd. lia. }
      rewrite Es in W. assert (k = []) by (destruct k; auto; cbn [well_nested] in W; destruct W as [[Z _] _]; congruence).
      subst k. cbn [cfg_ops] in Cr. apply Some_inj in Cr. subst bF.
      rewrite (walk_here_only _ _ _ B1 W2 eq_refl) in T2. cbn [wsum fold_right] in T2.
      unfold weight_at in T2 at 2. change (ops_in (cb_blocks b1) (current b1)) with (ops_of b1 (current b1)) in T2. lia.
    + assert (Stp : forall st0, step p (mkFrame f (c :: ls) (End :: k) :: st0) End (mkFrame f ls k :: st0)) by (intros; constructor).
      destruct (Next ls l2) as (is & R & T); [exact (StepOk _ Stp)|cbn [depth_after]; rewrite nlen_cons; lia|auto|].
      exists (End :: is). split; [eapply Go; eauto|].
      cbn [total_charge fold_right]. fold (total_charge (charge p r) is). change (charge p r End) with 0. lia.
  - (* plain *)
    destruct (plain_spec i b b1 (bi_size b B) P Ci) as (A1 & A2 & A3 & _ & _ & A6 & _).
    assert (Ops : weight_ops w (ops_of b1 (current b1)) = weight_ops w (ops_of b (current b)) + w i).
    { rewrite A6, A3, N.eqb_refl, weight_ops_app. cbn [weight_ops fold_right]. lia. }
    assert (W1 : walk (E bF) (current b1) (current bF) l) by (rewrite A3; exact Wk).
    destruct i; try discriminate P.
    + (* ordinary *)
      assert (Stp : forall st0, step p (mkFrame f ls (Op o :: k) :: st0) (Op o) (mkFrame f ls k :: st0)) by (intros; constructor).
      destruct (Next ls l (StepOk _ Stp) eq_refl W1) as (is & R & T).
      exists (Op o :: is). split; [eapply Go; eauto|].
      cbn [total_charge fold_right]. fold (total_charge (charge p r) is).
      change (charge p r (Op o)) with (w (Op o)). lia.
    + destruct (nested_after_end k (InBlock :: s) 0 NLk W) as (c0 & Ae0); [cbn; lia|].
      assert (Stp : forall st0, step p (mkFrame f ls (Block :: k) :: st0) Block (mkFrame f (c0 :: ls) k :: st0)) by (intros; now constructor).
      destruct (Next (c0 :: ls) l) as (is & R & T); [exact (StepOk _ Stp)|cbn [depth_after]; rewrite nlen_cons; lia|auto|].
      exists (Block :: is). split; [eapply Go; eauto|].
      cbn [total_charge fold_right]. fold (total_charge (charge p r) is).
      change (charge p r Block) with (w Block). lia.
    + congruence.
    + (* call *)
      assert (Okk : frame_ok p (mkFrame f ls k)) by (eapply frame_next; [|exact Ok]; reflexivity).
      destruct (Next ls l Okk eq_refl W1) as (is & R & T).
      destruct (N.lt_ge_cases target (nlen (p_imports p))) as [Li|Li].
      * exists (Call target :: is). split; [eapply prun_step; [apply step_host; auto|exact R]|].
        cbn [total_charge fold_right]. fold (total_charge (charge p r) is).
        assert (Q : charge p r (Call target) = w (Call target)).
        { unfold charge, w, weight_of. cbn [is_control full_charge resolve_op].
          destruct (nth_error (p_imports p) (N.to_nat target)) eqn:Z; [reflexivity|].
          apply nth_error_None in Z. unfold nlen in Li. lia. }
        lia.
      * destruct (callees target (mkFrame f ls k :: st) Inb Li) as (gb & js & Gg & Rg & Tg).
        exists (Call target :: js ++ is). split.
        -- eapply prun_step; [eapply step_call; eauto|]. eapply prun_app; eauto.
        -- cbn [total_charge fold_right]. fold (total_charge (charge p r) (js ++ is)). rewrite total_charge_app, Tg. fold w.
           assert (Q : charge p r (Call target) = 0).
           { unfold charge. cbn [is_control full_charge].
             destruct (nth_error (p_imports p) (N.to_nat target)) eqn:Z; [|reflexivity].
             assert (Z' : (N.to_nat target < length (p_imports p))%nat) by (apply nth_error_Some; congruence).
             unfold nlen in Li. lia. }
           lia.
    + destruct (proj2 lf f ty). exists body. split; [now apply assoc_in|auto].
Qed.
End Follow.

(** All functions, callees first. *)
Lemma price_attained p r pr len : loop_free p -> price_program p r = Some pr ->
  (forall f body, get_func p f = Some body -> well_nested [InBlock] body) ->
  (len = true \/ forall g h, calls p g h -> ~ occurs p h Unreachable) ->
  forall n f body st, (forall b l, walk (calls p) f b l -> (length l <= n)%nat) ->
  get_func p f = Some body -> (len = true \/ st = [] \/ ~ In Unreachable body) ->
  exists v is, assoc f pr = Some v /\ prun p len (mkFrame f [] body :: st) is st /\ total_charge (charge p r) is = v.
Proof.
  intros LF Pr Wn Tr. destruct (price_program_spec p r pr Pr) as (_ & _ & P).
  induction n as [|n IH]; intros f body st H G T.
  { specialize (H f [f] (walk_here _ f)). cbn in H. lia. }
  destruct (P f) as (fp & v & Sb & Cf & Av).
  { left. unfold defined. apply assoc_in in G. apply in_map_iff. eexists (_, _). split; [|exact G]. reflexivity. }
  destruct (compute_spec p r fp pr _ _ Sb Cf) as (body' & bF & G' & C & BF & _ & _ & _ & (l & Wl & Tl) & _).
  rewrite G in G'. apply Some_inj in G'. subst body'.
  assert (Cal : forall g rest, In (Call g) body -> nlen (p_imports p) <= g ->
    exists gb is, get_func p g = Some gb /\ prun p len (mkFrame g [] gb :: rest) is rest /\
      total_charge (charge p r) is = weight_of p r pr (Call g)).
  { intros g rest Ig Lg.
    assert (Cg : calls p f g) by (split; [exists body; split; [now apply assoc_in|auto]|auto]).
    destruct (P g (or_intror (ex_intro _ f Cg))) as (fpg & vg & Sbg & Cfg & _).
    destruct (compute_spec p r fpg pr _ _ Sbg Cfg) as (gb & _ & Gg & _).
    destruct (IH g gb rest) as (vg' & is & Ag & Rg & Tg); auto.
    - intros b0 l0 W0. specialize (H b0 (f :: l0) (walk_next _ _ _ _ _ Cg W0)). cbn [length] in H. lia.
    - destruct Tr as [Tr|Tr]; [auto|]. right. right. intros X. apply (Tr f g Cg). exists gb. split; [now apply assoc_in|auto].
    - exists gb, is. split; [auto|]. split; [auto|]. rewrite Tg. unfold weight_of. cbn [resolve_op].
      assert (Im : nth_error (p_imports p) (N.to_nat g) = None) by (apply nth_error_None; unfold nlen in Lg; lia).
      rewrite Im, Ag. reflexivity. }
  assert (NL : no_loop body) by (intros X; apply (proj1 LF f); exists body; split; [now apply assoc_in|auto]).
  assert (L0 : 0 < current cfg_new) by reflexivity.
  apply walk_cases in Wl. destruct Wl as [[Q _]|(y & l' & -> & X & W')].
  { pose proof (bi_size bF BF). destruct (cfg_ops_inv _ _ _ cfg_new_inv C) as [_ Gr]. pose proof (gr_size _ _ Gr) as Z.
    change (size cfg_new) with 2 in Z. pose proof (size_current bF (bi_size bF BF)). lia. }
  destruct (edge_origin body [InBlock] cfg_new bF 0 y NL cfg_new_inv sim_new (Wn f body G) C L0 X) as [Y|(t & m & c & b2 & _ & _ & _ & Cs)].
  2:{ destruct Cs as [([[]|Z] & _)|(Z & _)]; discriminate Z. }
  assert (y = 1).
  { destruct Y as (kb & Y1 & Y2). cbn in Y1. apply Some_inj in Y1. subst kb. destruct Y2 as [<-|[]]. reflexivity. }
  subst y. change 1 with (current cfg_new) in W'.
  destruct (follow p r pr len LF f body bF st G C T Cal (length body) [] body cfg_new [InBlock] l') as (is & R & Tt); auto.
  - split; cbn [fr_func fr_code fr_labels]; auto.
    + exists []. auto.
    + split; cbn [fr_func fr_code fr_labels]; [exists body; split; [auto|apply suffix_refl]|]. intros x z Z. destruct x; discriminate.
  - apply sim_new.
  - exact (Wn f body G).
  - exists v, is. split; [auto|]. split; [auto|]. rewrite <- Tl. cbn [wsum fold_right].
    fold (wsum (weight_at (weight_of p r pr) (cb_blocks bF)) l').
    change (weight_ops (weight_of p r pr) (ops_of cfg_new (current cfg_new))) with 0 in Tt.
    assert (Z : weight_at (weight_of p r pr) (cb_blocks bF) 0 = 0).
    { unfold weight_at. change (ops_in (cb_blocks bF) 0) with (ops_of bF 0). rewrite (frozen body cfg_new bF 0 cfg_new_inv C L0). reflexivity. }
    rewrite Z. lia.
Qed.

(** No path costs more than the price. *)
Lemma path_budget p r pr : price_program p r = Some pr -> loop_free p -> forall st is st', path p st is st' ->
  stack_ok p st -> forall v, budget p r pr st v -> total_charge (charge p r) is <= v.
Proof.
  intros Pr LF st is st'. induction 1 as [st|st i st1 is st2 S R IH|f ls k st is st2 R IH]; intros O v B;
    cbn [total_charge fold_right]; [lia| |].
  - destruct (step_budget p r pr Pr LF _ _ _ _ S O B) as [L B1]. specialize (IH (step_ok _ _ _ _ LF O S) _ B1).
    unfold total_charge in IH. lia.
  - change (charge p r Unreachable) with 0. unfold total_charge in IH. apply IH.
    + destruct O as [O K]. inversion O; subst. split; [auto|]. eapply linked_tail; eauto.
    + destruct B as (vs & F & L). inversion F; subst. eexists. split; [eassumption|]. cbn [fold_right] in L. lia.
Qed.
