(** Proofs about pricing: which programs can be priced. *)
From Coq Require Import String List NArith Arith Bool Lia ZifyBool ZifyNat ZifyN.
From Verif Require Import Base Text GraphModel GraphSpec GraphProofs ProgramModel ProgramSpec ProgramProofs
  PricingModel PricingSpec CfgProofs PricingProofs.
Import ListNotations.
Open Scope list_scope.
Open Scope N_scope.

(* ------------------------------------------------------------------------- *)
(** * Well-nested bodies have a graph *)

Definition match_scope (x : scope) (c : option conts) : Prop :=
  match x with
  | InBlock => c = None
  | InThen => exists o, c = Some (mkConts (Some o) (Some o) None)
  | InElse => exists o, c = Some (mkConts None None (Some o))
  end.
Fixpoint scopes_match (s : list scope) (cs : N -> option conts) : Prop :=
  match s with
  | [] => True
  | x :: s => match_scope x (cs (nlen s)) /\ scopes_match s cs
  end.
Fixpoint bottom (s : list scope) : Prop :=
  match s with [] => True | [x] => x = InBlock | _ :: s => bottom s end.
Lemma nlen_cons {A} (x : A) s : nlen (x :: s) = nlen s + 1.
Proof. unfold nlen. cbn [length]. lia. Qed.
Lemma scopes_match_ext s cs cs' : (forall t, t < nlen s -> cs' t = cs t) -> scopes_match s cs -> scopes_match s cs'.
Proof.
  induction s as [|x s IH]; intros H M; [exact I|]. destruct M as [M1 M2]. split.
  - rewrite H; [auto|]. rewrite nlen_cons. lia.
  - apply IH; auto. intros t L. apply H. rewrite nlen_cons. lia.
Qed.
Lemma bottom_tl x s : bottom (x :: s) -> bottom s.
Proof. destruct s; cbn; auto. Qed.
Lemma bottom_cons x s : s <> [] -> bottom s -> bottom (x :: s).
Proof. destruct s; cbn; [congruence|auto]. Qed.

Record sim (s : list scope) (b : builder) : Prop := mkSim {
  si_depth : cb_depth b = nlen s;
  si_conts : scopes_match s (fun t => assoc t (cb_conts b));
  si_jumps : forall t, assoc t (cb_jumps b) <> None -> t < nlen s;
  si_bottom : bottom s
}.

Lemma sim_new : sim [InBlock] cfg_new.
Proof. split; try reflexivity; [split; reflexivity|]. intros t H. now destruct H. Qed.

Lemma add_jumps_total o ls : forall b, (forall l, In l ls -> l < cb_depth b) -> exists b', add_jumps o ls b = Some b'.
Proof.
  induction ls as [|l ls IH]; intros b H; cbn [add_jumps]; [eauto|].
  unfold target_depth. destruct (N.ltb_spec l (cb_depth b)) as [L|L]; [|specialize (H l (or_introl eq_refl)); lia].
  cbn [obind]. apply IH. intros l' I. cbn. apply H. now right.
Qed.

Lemma jump_total i s b : is_jump i = true -> allowed i s -> cb_depth b = nlen s -> exists b', cfg_op i b = Some b'.
Proof.
  intros J [_ A] D.
  destruct i; try discriminate J; cbn [cfg_op]; eauto.
  - apply add_jumps_total. intros l [<-|[]]. cbn. lia.
  - destruct (add_jumps_total (current b) [label] (create_block b)) as [b' X].
    + intros l [<-|[]]. cbn. lia.
    + rewrite X. cbn [obind]. eauto.
  - apply add_jumps_total. intros l I. change (cb_depth (create_block b)) with (cb_depth b). rewrite D. apply A. exact I.
Qed.

Lemma nested_step i s b : binv b -> sim s b -> i <> Loop -> allowed i s ->
  exists b', cfg_op i b = Some b' /\ sim (next_scope i s) b'.
Proof.
  intros B [D M Jk Bo] NL Al. pose proof Al as [NE A].
  assert (Ex : exists b', cfg_op i b = Some b').
  { destruct (instr_cases i) as [J|[->|[->|[->|P]]]].
    - eapply jump_total; eauto.
    - cbn. eauto.
    - destruct A as [s' ->]. destruct M as [[o M] _]. rewrite nlen_cons in D.
      assert (s' <> []) by (intros ->; cbn in Bo; discriminate).
      assert (1 <= nlen s') by (destruct s'; [congruence|rewrite nlen_cons; lia]).
      cbn [cfg_op]. unfold enter_else. destruct (N.leb_spec (cb_depth b) 1); [lia|].
      replace (cb_depth b - 1) with (nlen s') by lia. rewrite M. cbn. eauto.
    - destruct s as [|x s]; [congruence|]. destruct M as [M _]. rewrite nlen_cons in D.
      cbn [cfg_op]. unfold exit_scope. destruct (N.eqb_spec (cb_depth b) 0); [lia|].
      replace (cb_depth b - 1) with (nlen s) by lia.
      destruct x; cbn [match_scope] in M; [rewrite M; eauto| |]; destruct M as [o ->]; cbn; eauto.
    - destruct i; try discriminate P; cbn; eauto. }
  destruct Ex as [b' X]. exists b'. split; [auto|].
  destruct (cfg_op_inv i b b' B X) as [B' _]. pose proof (cfg_op_depth i b b' B X) as D'.
  destruct (instr_cases i) as [J|[->|[->|[->|P]]]].
  - destruct (jump_spec i b b' B J X) as (A1 & _ & A3 & _ & _ & A6 & _ & _ & _ & A10 & _).
    replace (next_scope i s) with s by (destruct i; auto; discriminate J).
    split; [congruence|rewrite A3; auto| |auto]. intros t Z. destruct (A10 t Z) as [Y|[->|(l & Il & ->)]]; auto.
    + destruct s; [congruence|rewrite nlen_cons; lia].
    + apply A6 in Il. lia.
  - cbn [cfg_op] in X. apply Some_inj in X. destruct (if_spec b B) as (A1 & _ & A3 & _ & A5 & _). rewrite X in *.
    cbn [next_scope]. split.
    + rewrite nlen_cons. lia.
    + split; [rewrite A5, D, N.eqb_refl; cbn; eauto|]. eapply scopes_match_ext; [|exact M].
      intros t L. cbn beta. rewrite A5, D. destruct (N.eqb_spec t (nlen s)); [lia|auto].
    + intros t Z. rewrite A3 in Z. rewrite nlen_cons. specialize (Jk t Z). lia.
    + now apply bottom_cons.
  - destruct A as [s' ->]. cbn [next_scope]. destruct (else_spec b b' B X) as (o & _ & _ & A2 & _ & A4 & _ & A6 & _).
    rewrite nlen_cons in *. destruct M as [_ M]. split.
    + rewrite nlen_cons. congruence.
    + replace (cb_depth b - 1) with (nlen s') in A6 by lia. split; [rewrite A6, N.eqb_refl; cbn; eauto|].
      eapply scopes_match_ext; [|exact M]. intros t L. cbn beta. rewrite A6. destruct (N.eqb_spec t (nlen s')); [lia|auto].
    + intros t Z. rewrite A4 in Z. rewrite nlen_cons. auto.
    + destruct s'; [discriminate Bo|exact Bo].
  - destruct s as [|x s]; [congruence|]. cbn [next_scope tl].
    destruct (exit_spec b b' B X) as (_ & A2 & A3 & _ & A5 & _). rewrite nlen_cons in *.
    replace (cb_depth b - 1) with (nlen s) in * by lia. destruct M as [_ M]. split; [auto| | |].
    + eapply scopes_match_ext; [|exact M]. intros t L. cbn beta. rewrite A3. destruct (N.eqb_spec t (nlen s)); [lia|auto].
    + intros t Z. rewrite A5 in Z. destruct (N.eqb_spec t (nlen s)); [now destruct Z|]. specialize (Jk t Z). lia.
    + eapply bottom_tl; eauto.
  - destruct (plain_spec i b b' (bi_size b B) P X) as (A1 & _ & _ & A4 & A5 & _).
    destruct i; try discriminate P; try congruence; cbn [next_scope];
      (split; [rewrite ?nlen_cons; lia| |rewrite A4; auto; intros t Z; specialize (Jk t Z); rewrite ?nlen_cons; lia|try apply bottom_cons; auto]);
      rewrite A5; auto.
    split; [|auto]. cbn [match_scope]. destruct (assoc (nlen s) (cb_conts b)) eqn:Z; auto.
    apply (bi_conts b B) in Z. lia.
Qed.

Lemma nested_total k : forall s b, binv b -> sim s b -> no_loop k -> well_nested s k ->
  exists bF, cfg_ops k b = Some bF /\ cb_jumps bF = [] /\ cb_depth bF = 0.
Proof.
  induction k as [|i k IH]; intros s b B Si NL W; cbn [well_nested cfg_ops] in *.
  - subst s. exists b. split; [auto|]. split; [|exact (si_depth _ _ Si)].
    destruct (cb_jumps b) as [|[t l] js] eqn:J; auto. pose proof (si_jumps _ _ Si t) as Z. rewrite J in Z.
    cbn [assoc] in Z. rewrite N.eqb_refl in Z. specialize (Z ltac:(discriminate)). unfold nlen in Z. cbn in Z. lia.
  - destruct W as [A W]. destruct (nested_step i s b B Si) as (b1 & X & S1); auto.
    { intros ->. apply NL. now left. }
    rewrite X. cbn [obind]. destruct (cfg_op_inv _ _ _ B X) as [B1 _].
    apply (IH (next_scope i s) b1 B1 S1); [|exact W]. intros Z. apply NL. now right.
Qed.

(* ------------------------------------------------------------------------- *)
(** * Live positions are reachable in the graph *)

Section Live.
Variables (p : program) (f : N) (body : list instr) (bF : builder).
Hypothesis Gf : get_func p f = Some body.
Hypothesis lf : loop_free p.
Hypothesis CF : cfg_ops body cfg_new = Some bF.

Definition R (y : N) : Prop := y = 0 \/ leads (E bF) 0 y.
Lemma R_next x y : R x -> E bF x y -> R y.
Proof. intros [->|H] X; right; [now constructor|eapply leads_snoc; eauto]. Qed.

Record at_frame (fr : frame) (b : builder) : Prop := mkAt {
  at_func : fr_func fr = f;
  at_pre : exists q, body = q ++ fr_code fr /\ cfg_ops q cfg_new = Some b;
  at_depth : cb_depth b = 1 + nlen (fr_labels fr);
  at_ok : frame_ok p fr
}.
Lemma at_move ls i k b b1 c b2 ls2 : at_frame (mkFrame f ls (i :: k)) b -> cfg_op i b = Some b1 ->
  meets k c b1 b2 -> cb_depth b2 = 1 + nlen ls2 -> frame_ok p (mkFrame f ls2 c) -> at_frame (mkFrame f ls2 c) b2.
Proof.
  intros [_ (q & Q & C) _ _] X (q' & -> & Y) D Ok. split; cbn [fr_func fr_code fr_labels] in *; auto.
  exists (q ++ i :: q'). split; [rewrite <- app_assoc; exact Q|].
  rewrite cfg_ops_app, C. cbn [obind cfg_ops]. rewrite X. cbn [obind]. exact Y.
Qed.

Lemma NLb : no_loop body.
Proof. intros X. apply (proj1 lf f). exists body. split; [now apply assoc_in|auto]. Qed.

Lemma at_facts fr b : at_frame fr b -> binv b /\ cfg_ops (fr_code fr) b = Some bF /\ grows b bF /\ no_loop (fr_code fr).
Proof.
  intros [_ (q & Q & C) _ _]. destruct (cfg_ops_inv _ _ _ cfg_new_inv C) as [B _].
  assert (Cr : cfg_ops (fr_code fr) b = Some bF).
  { pose proof CF as Z. rewrite Q, cfg_ops_app, C in Z. exact Z. }
  destruct (cfg_ops_inv _ _ _ B Cr) as [_ Gr]. do 3 (split; [auto|]).
  intros X. apply NLb. rewrite Q. apply in_or_app. auto.
Qed.

(** A step inside the activation follows an edge or stays in its block. *)
Lemma flow_at fr fr' b : at_frame fr b -> flow p fr fr' ->
  exists b', at_frame fr' b' /\ (current b' = current b \/ E bF (current b) (current b')).
Proof.
  intros A H. destruct (at_facts _ _ A) as (B & Cr & Gr & NLk). pose proof (at_ok _ _ A) as Ok.
  pose proof (at_func _ _ A) as Ef. pose proof (at_depth _ _ A) as Db.
  assert (Ok' : frame_ok p fr').
  { destruct H as [fr i fr' S|f0 ls g k].
    - assert (So : stack_ok p [fr']) by (eapply step_ok; [exact lf| |exact S]; split; [constructor; [exact Ok|constructor]|exact I]).
      destruct So as [So _]. now inversion So.
    - eapply frame_next; [|exact Ok]. reflexivity. }
  assert (Go : forall ls i k b1 c b2 ls2, fr = mkFrame f ls (i :: k) -> cfg_op i b = Some b1 -> meets k c b1 b2 ->
     cb_depth b2 = 1 + nlen ls2 -> fr' = mkFrame f ls2 c -> at_frame fr' b2 /\ grows b2 bF).
  { intros ls i k b1 c b2 ls2 -> X M D ->. pose proof (at_move _ _ _ _ _ _ _ _ A X M D Ok') as A2.
    split; [auto|]. now apply at_facts in A2. }
  assert (First : forall ls i k, fr = mkFrame f ls (i :: k) -> exists b1, cfg_op i b = Some b1 /\ binv b1 /\
     cfg_ops k b1 = Some bF /\ cb_depth b1 = depth_after i (1 + nlen ls)).
  { intros ls i k ->. cbn [fr_code fr_labels] in *. cbn [cfg_ops] in Cr.
    destruct (cfg_op i b) as [b1|] eqn:X; [|discriminate]. cbn [obind] in Cr. exists b1.
    destruct (cfg_op_inv i b b1 B X) as [B1 _]. do 3 (split; [auto|]). rewrite (cfg_op_depth i b b1 B X), Db. reflexivity. }
  assert (Fall : forall ls i k ls2, fr = mkFrame f ls (i :: k) -> fr' = mkFrame f ls2 k ->
     depth_after i (1 + nlen ls) = 1 + nlen ls2 -> (plain i = true \/ i = If \/ conditional i = true \/ i = End) ->
     exists b', at_frame fr' b' /\ (current b' = current b \/ E bF (current b) (current b'))).
  { intros ls i k ls2 Q Q' D Hi. destruct (First ls i k Q) as (b1 & X & B1 & _ & D1).
    destruct (Go ls i k b1 k b1 ls2 Q X (meets_here _ _)) as [A1 G1]; [congruence|auto|].
    exists b1. split; [auto|]. destruct (falls i b b1 B X Hi); [auto|right; now apply (gr_E _ _ G1)]. }
  assert (Jump : forall ls i k l, fr = mkFrame f ls (i :: k) -> is_jump i = true -> In l (jump_labels i) ->
     branch (mkFrame f ls k) l (Some fr') ->
     exists b', at_frame fr' b' /\ (current b' = current b \/ E bF (current b) (current b'))).
  { intros ls i k l -> J Il Br. destruct (First ls i k eq_refl) as (b1 & X & B1 & R1 & D1).
    assert (Ei : forall n, after_end n (i :: k) = after_end n k) by (intros n; destruct i; try discriminate J; reflexivity).
    destruct (branch_ok p f ls i k l fr' Ei Ok Br) as (_ & Ae & _).
    destruct (jump_spec i b b1 B J X) as (Dj & _ & _ & _ & _ & Jl & _). destruct (Jl l Il) as [Ll Pe].
    cbn [fr_labels fr_code] in *. inversion Br as [fr0 l0 c Hn|]; subst. cbn [fr_func fr_labels fr_code] in *.
    assert (Lt : (N.to_nat l < length ls)%nat) by (apply nth_error_Some; congruence).
    destruct (after_end_meets k (N.to_nat l) c b1 bF (cb_depth b - l - 1) (current b)) as (b2 & M & E2 & D2); auto.
    { intros Z. apply NLk. now right. }
    { rewrite Dj. lia. }
    { left. exact Pe. }
    destruct (Go ls i k b1 c b2 (skipn (S (N.to_nat l)) ls) eq_refl X M) as [A2 G2]; [|reflexivity|].
    { unfold nlen in *. rewrite skipn_length. lia. }
    exists b2. split; [exact A2|]. right. now apply (gr_E _ _ G2). }
  destruct H as [fr i fr' S|f0 ls g k].
  2:{ cbn [fr_func] in Ef. subst f0. eapply (Fall ls (Call g) k ls); auto. }
  inversion S; subst; cbn [fr_func] in *; subst.
  - eapply (Fall ls (Op o) k ls); auto.
  - eapply (Fall ls Block k (c :: ls)); auto. cbn [depth_after]. rewrite nlen_cons. lia.
  - destruct (NLk). now left.
  - eapply (Fall ls If k (c :: ls)); auto. cbn [depth_after]. rewrite nlen_cons. lia.
  - destruct (First ls If k eq_refl) as (b1 & X & B1 & R1 & D1).
    destruct (if_spec b B) as (Di & _ & _ & _ & Ci & _). pose proof X as X'. cbn [cfg_op] in X'. apply Some_inj in X'.
    rewrite X' in Di, Ci. cbn [fr_labels] in *.
    destruct (on_false_meets k 0 (ToElse k') b1 bF (cb_depth b) (current b)) as (b2 & E2 & M & D2); auto.
    { intros Z. apply NLk. now right. }
    { rewrite Di. lia. }
    { rewrite Ci, N.eqb_refl. reflexivity. }
    destruct (Go ls If k b1 k' b2 (c :: ls) eq_refl X M) as [A2 G2]; [rewrite nlen_cons; lia|reflexivity|].
    exists b2. split; [exact A2|]. right. now apply (gr_E _ _ G2).
  - destruct (First ls If k eq_refl) as (b1 & X & B1 & R1 & D1).
    destruct (if_spec b B) as (Di & _ & _ & _ & Ci & _). pose proof X as X'. cbn [cfg_op] in X'. apply Some_inj in X'.
    rewrite X' in Di, Ci. cbn [fr_labels] in *.
    destruct (on_false_meets k 0 (ToEnd k') b1 bF (cb_depth b) (current b)) as (b2 & E2 & M & D2); auto.
    { intros Z. apply NLk. now right. }
    { rewrite Di. lia. }
    { rewrite Ci, N.eqb_refl. reflexivity. }
    destruct (Go ls If k b1 k' b2 ls eq_refl X M) as [A2 G2]; [lia|reflexivity|].
    exists b2. split; [exact A2|]. right. now apply (gr_E _ _ G2).
  - destruct (First (c :: ls) Else k eq_refl) as (b1 & X & B1 & R1 & D1).
    pose proof (proj2 Ok O c eq_refl) as Ae. cbn [fr_code after_end] in Ae. cbn [fr_labels] in *. rewrite nlen_cons in *.
    destruct (else_spec b b1 B X) as (o & _ & _ & De & _ & _ & _ & Ce & _).
    destruct (after_end_meets k 0 c b1 bF (cb_depth b - 1) (current b)) as (b2 & M & E2 & D2); auto.
    { intros Z. apply NLk. now right. }
    { rewrite De. lia. }
    { right. rewrite Ce, N.eqb_refl. reflexivity. }
    destruct (Go (c :: ls) Else k b1 c b2 ls eq_refl X M) as [A2 G2]; [lia|reflexivity|].
    exists b2. split; [exact A2|]. right. now apply (gr_E _ _ G2).
  - eapply (Fall (c :: ls) End k ls); auto. cbn [depth_after]. rewrite nlen_cons. lia.
  - match goal with H : push ?o [] = [_] |- _ => destruct o; [|discriminate]; cbn [push] in H; injection H as -> end.
    eapply (Jump ls (Br l) k l); eauto. now left.
  - match goal with H : push ?o [] = [_] |- _ => destruct o; [|discriminate]; cbn [push] in H; injection H as -> end.
    eapply (Jump ls (BrIf l) k l); eauto. now left.
  - eapply (Fall ls (BrIf l) k ls); auto.
  - match goal with H : push ?o [] = [_] |- _ => destruct o; [|discriminate]; cbn [push] in H; injection H as -> end.
    eapply (Jump ls (BrTable t d) k l); eauto.
  - eapply (Fall ls (Call g) k ls); auto.
  - eapply (Fall ls (CallIndirect t) k ls); auto.
Qed.

Lemma flows_at fr : flows p (mkFrame f [] body) fr -> exists b, at_frame fr b /\ R (current b).
Proof.
  intros H. remember (mkFrame f [] body) as fr0. induction H as [|fr0 fr1 fr2 _ IH S]; subst.
  - exists cfg_new. split.
    + split; cbn [fr_func fr_code fr_labels]; auto.
      * exists []. auto.
      * split; cbn [fr_func fr_code fr_labels]; [exists body; split; [auto|apply suffix_refl]|].
        intros l c X. destruct l; discriminate.
    + destruct (cfg_ops_inv _ _ _ cfg_new_inv CF) as [_ G]. apply R_next with (x := 0); [now left|].
      apply (gr_E _ _ G). exists (mkBlock [] [1]). split; [reflexivity|now left].
  - destruct (IH eq_refl) as (b & A & Rb). destruct (flow_at _ _ _ A S) as (b' & A' & [Q|Q]).
    + exists b'. split; [auto|]. now rewrite Q.
    + exists b'. split; [auto|]. eapply R_next; eauto.
Qed.

Lemma live_reachable q k b : body = q ++ k -> cfg_ops q cfg_new = Some b -> live p f body k -> R (current b).
Proof.
  intros Q C (ls & H). destruct (flows_at _ H) as (b' & A & Rb). destruct (at_pre _ _ A) as (q' & Q' & C').
  cbn [fr_code] in Q'. rewrite Q in Q'. apply app_inv_tail in Q'. subst q'. rewrite C in C'. apply Some_inj in C'. now subst.
Qed.

(** Everything tidy code adds is reachable. *)
Record clean (s : list scope) (b : builder) : Prop := mkClean {
  cl_edges : forall x y, E b x y -> R y;
  cl_jumps : forall t o, In o (pend t b) -> R o;
  cl_ifs : forall t o, assoc t (cb_conts b) = Some (mkConts (Some o) (Some o) None) -> R o
}.
Lemma tidy_clean k : forall q s b, body = q ++ k -> cfg_ops q cfg_new = Some b -> sim s b -> clean s b ->
  well_nested s k -> tidy (live p f body) s k -> clean [] bF.
Proof.
  induction k as [|i k IH]; intros q s b Q C Si Cl W T.
  - rewrite app_nil_r in Q. subst q. rewrite CF in C. apply Some_inj in C. subst b. destruct Cl. now split.
  - cbn [well_nested tidy] in W, T. destruct W as [Al W], T as [Ti T].
    destruct (cfg_ops_inv _ _ _ cfg_new_inv C) as [B _].
    assert (NLi : i <> Loop) by (intros ->; apply NLb; rewrite Q; apply in_elt).
    destruct (nested_step i s b B Si NLi Al) as (b1 & X & S1).
    assert (Q1 : body = (q ++ [i]) ++ k) by (rewrite <- app_assoc; exact Q).
    assert (C1 : cfg_ops (q ++ [i]) cfg_new = Some b1).
    { rewrite cfg_ops_app, C. cbn [obind cfg_ops]. now rewrite X. }
    assert (G1 : grows b1 bF).
    { pose proof CF as Z. rewrite Q1, cfg_ops_app, C1 in Z. cbn [obind] in Z.
      destruct (cfg_ops_inv _ _ _ cfg_new_inv C1) as [B1 _]. now destruct (cfg_ops_inv _ _ _ B1 Z). }
    apply (IH (q ++ [i]) (next_scope i s) b1 Q1 C1 S1); auto.
    assert (Lv : live p f body (i :: k) -> R (current b)) by (apply live_reachable with (q := q); auto).
    assert (Lv1 : live p f body k -> R (current b1)) by (apply live_reachable with (q := q ++ [i]); auto).
    assert (Up : forall x y, E b1 x y -> R x -> R y).
    { intros x y Y Z. eapply R_next; [exact Z|]. now apply (gr_E _ _ G1). }
    destruct Cl as [Ce Cj Ci].
    destruct (instr_cases i) as [J|[->|[->|[->|P]]]].
    + assert (Rb : R (current b)) by (apply Lv; destruct i; try discriminate J; exact Ti).
      destruct (jump_spec i b b1 B J X) as (_ & _ & A3 & _ & A5 & _ & _ & A8 & _). split.
      * intros x y Y. pose proof Y as Y0. apply A5 in Y. destruct Y as [Y|(_ & -> & ->)]; eauto.
      * intros t o Y. apply A8 in Y. destruct Y as [Y| ->]; eauto.
      * intros t o Y. rewrite A3 in Y. eauto.
    + pose proof (Lv Ti) as Rb. cbn [cfg_op] in X. apply Some_inj in X.
      destruct (if_spec b B) as (_ & _ & A3 & _ & A5 & A6). rewrite X in *. split.
      * intros x y Y. pose proof Y as Y0. apply A6 in Y. destruct Y as [Y|(-> & ->)]; eauto.
      * intros t o Y. unfold pend in Y. rewrite A3 in Y. eauto.
      * intros t o Y. rewrite A5 in Y. destruct (t =? cb_depth b); [|eauto]. injection Y as <-. auto.
    + destruct (else_spec b b1 B X) as (o & A0 & _ & _ & _ & A4 & _ & A6 & A7). split.
      * intros x y Y. pose proof Y as Y0. apply A7 in Y. destruct Y as [Y|(-> & ->)]; eauto.
      * intros t o' Y. unfold pend in Y. rewrite A4 in Y. eauto.
      * intros t o' Y. rewrite A6 in Y. destruct (t =? cb_depth b - 1); [discriminate|eauto].
    + destruct (exit_spec b b1 B X) as (A1 & _ & A3 & A4 & _ & _ & _ & A7).
      set (d := cb_depth b - 1) in *.
      assert (Rn : owner b d ++ pend d b <> [] -> R (current b1)).
      { intros NE. pose proof NE as NE'. destruct Al as [NEs _]. destruct s as [|x s]; [congruence|].
        destruct Si as [Sd Sc _ _]. rewrite nlen_cons in Sd. destruct Sc as [Sc _].
        replace (nlen s) with d in Sc by (unfold d; lia).
        destruct x; cbn [match_scope] in Sc.
        - assert (Io : exists o, In o (pend d b)).
          { clear - NE Sc. unfold owner in NE. rewrite Sc in NE. cbn [app] in NE.
            destruct (pend d b) as [|o js]; [congruence|]. exists o. now left. }
          destruct Io as [o Io].
          eapply Up; [|exact (Cj d o Io)]. apply A7. right. split; [exact NE'|].
          split; [reflexivity|]. right. apply in_or_app. right. exact Io.
        - destruct Sc as [o Sc]. eapply Up; [|exact (Ci d o Sc)]. apply A7. right.
          split; [unfold owner; rewrite Sc; discriminate|]. split; [auto|]. right. apply in_or_app. left.
          unfold owner. rewrite Sc. now left.
        - apply Lv1. exact Ti. }
      split.
      * intros x y Y. apply A7 in Y. destruct Y as [Y|(NE & -> & _)]; eauto.
      * intros t o Y. rewrite A4 in Y. destruct (t =? d); [destruct Y|eauto].
      * intros t o Y. rewrite A3 in Y. destruct (t =? d); [discriminate|eauto].
    + destruct (plain_spec i b b1 (bi_size b B) P X) as (_ & _ & _ & A4 & A5 & _ & A7). split.
      * intros x y Y. apply A7 in Y. eauto.
      * intros t o Y. unfold pend in Y. rewrite A4 in Y. eauto.
      * intros t o Y. rewrite A5 in Y. eauto.
Qed.

Lemma tidy_edges : well_nested [InBlock] body -> tidy (live p f body) [InBlock] body ->
  forall x y, E bF x y -> R y.
Proof.
  intros W T. destruct (cfg_ops_inv _ _ _ cfg_new_inv CF) as [_ G].
  assert (C : clean [] bF).
  { eapply (tidy_clean body [] [InBlock] cfg_new); eauto; [apply sim_new|]. split.
    - intros x y Y. apply R_next with (x := x); [|now apply (gr_E _ _ G)].
      pose proof (bi_fwd _ cfg_new_inv x y Y) as L. change (size cfg_new) with 2 in L. left. lia.
    - intros t o [].
    - intros t o Y. discriminate Y. }
  exact (cl_edges _ _ C).
Qed.
End Live.

(* ------------------------------------------------------------------------- *)
(** * Weights *)

Section Weights.
Variable w : instr -> N.

(** The weight of all the blocks together. *)
Fixpoint sum_to (n : nat) (g : N -> N) : N := match n with O => 0 | S n => sum_to n g + g (N.of_nat n) end.
Lemma sum_to_ext n g g' : (forall x, x < N.of_nat n -> g x = g' x) -> sum_to n g = sum_to n g'.
Proof.
  induction n as [|n IH]; intros H; cbn [sum_to]; auto. rewrite IH; [|intros; apply H; lia]. rewrite H by lia. reflexivity.
Qed.
Lemma sum_to_beyond n m g : (forall x, N.of_nat n <= x -> g x = 0) -> sum_to (n + m) g = sum_to n g.
Proof.
  intros H. induction m as [|m IH]; [now rewrite Nat.add_0_r|].
  replace (n + S m)%nat with (S (n + m)) by lia. cbn [sum_to]. rewrite IH, H by lia. lia.
Qed.
Lemma sum_to_update n g g' c x0 : x0 < N.of_nat n -> (forall x, g' x = if x =? x0 then g x + c else g x) ->
  sum_to n g' = sum_to n g + c.
Proof.
  intros L H. induction n as [|n IH]; [lia|]. cbn [sum_to]. rewrite H.
  destruct (N.eqb_spec (N.of_nat n) x0) as [Q|Q].
  - rewrite (sum_to_ext n g' g); [lia|]. intros x Lx. rewrite H. destruct (N.eqb_spec x x0); [lia|auto].
  - rewrite IH by lia. lia.
Qed.
Lemma walk_below n g l : NoDup l -> (forall x, In x l -> x < N.of_nat n) -> wsum g l <= sum_to n g.
Proof.
  revert l. induction n as [|n IH]; intros l ND H.
  - destruct l as [|x l]; [cbn; lia|]. specialize (H x (or_introl eq_refl)). lia.
  - cbn [sum_to]. destruct (in_dec N.eq_dec (N.of_nat n) l) as [I|NI].
    + apply in_split in I. destruct I as (l1 & l2 & ->). apply NoDup_remove in ND. destruct ND as [ND NI].
      assert (Q : wsum g (l1 ++ N.of_nat n :: l2) = wsum g (l1 ++ l2) + g (N.of_nat n)).
      { clear. unfold wsum. induction l1 as [|y l1 IH]; cbn [app fold_right]; [lia|]. rewrite IH. lia. }
      rewrite Q. specialize (IH (l1 ++ l2) ND). apply N.add_le_mono_r. apply IH. intros x Ix.
      assert (x <> N.of_nat n) by (intros ->; contradiction).
      assert (In x (l1 ++ N.of_nat n :: l2)) by (apply in_or_app; cbn; apply in_app_or in Ix; tauto).
      specialize (H x H1). lia.
    + specialize (IH l ND). assert (wsum g l <= sum_to n g); [|lia]. apply IH. intros x Ix. pose proof (H x Ix).
      assert (x <> N.of_nat n) by (intros ->; contradiction). lia.
Qed.

Definition all_weight (b : builder) : N := sum_to (N.to_nat (size b)) (fun x => weight_ops w (ops_of b x)).
Lemma ops_beyond b x : size b <= x -> ops_of b x = [].
Proof.
  intros L. unfold ops_of, ops_in. replace (nth_error (cb_blocks b) (N.to_nat x)) with (@None cblock); auto.
  symmetry. apply nth_error_None. unfold size, nlen in L. lia.
Qed.
Lemma all_weight_op i b b' : binv b -> cfg_op i b = Some b' ->
  all_weight b' = all_weight b + (if plain i then w i else 0).
Proof.
  intros B X. pose proof (bi_size b B) as Sz. pose proof (size_current b Sz) as Sc.
  assert (Same : (forall x, ops_of b' x = ops_of b x) -> size b <= size b' -> all_weight b' = all_weight b).
  { intros Q L. unfold all_weight. replace (N.to_nat (size b')) with (N.to_nat (size b) + N.to_nat (size b' - size b))%nat by lia.
    rewrite sum_to_beyond.
    - apply sum_to_ext. intros x _. now rewrite Q.
    - intros x Lx. rewrite Q, ops_beyond by lia. reflexivity. }
  destruct (instr_cases i) as [J|[->|[->|[->|P]]]].
  - destruct (jump_spec i b b' B J X) as (_ & A2 & _ & A4 & _). rewrite Same by (auto; lia).
    destruct i; try discriminate J; cbn; lia.
  - cbn [cfg_op] in X. apply Some_inj in X. destruct (if_spec b B) as (_ & A2 & _ & A4 & _). rewrite X in *.
    rewrite Same by (auto; lia). cbn. lia.
  - destruct (else_spec b b' B X) as (o & _ & _ & _ & A3 & _ & A5 & _). rewrite Same by (auto; lia). cbn. lia.
  - destruct (exit_spec b b' B X) as (_ & _ & _ & _ & _ & A5 & A6 & _).
    rewrite Same by (auto; destruct (owner _ _ ++ _); lia). cbn. lia.
  - rewrite P. destruct (plain_spec i b b' Sz P X) as (_ & A2 & _ & _ & _ & A6 & _). unfold all_weight. rewrite A2.
    apply sum_to_update with (x0 := current b); [lia|]. intros x. rewrite A6.
    destruct (x =? current b); auto. rewrite weight_ops_app. cbn [weight_ops fold_right]. lia.
Qed.
Lemma all_weight_ops k : forall b bF, binv b -> cfg_ops k b = Some bF -> all_weight bF <= all_weight b + weight_ops w k.
Proof.
  induction k as [|i k IH]; intros b bF B H; cbn [cfg_ops] in H.
  - apply Some_inj in H. subst. cbn. lia.
  - destruct (cfg_op i b) as [b1|] eqn:X; [|discriminate]. cbn [obind] in H.
    destruct (cfg_op_inv _ _ _ B X) as [B1 _]. specialize (IH b1 bF B1 H).
    rewrite (all_weight_op i b b1 B X) in IH. cbn [weight_ops fold_right]. fold (weight_ops w k). destruct (plain i); lia.
Qed.
Lemma block_below b x : weight_ops w (ops_of b x) <= all_weight b.
Proof.
  destruct (N.lt_ge_cases x (size b)) as [L|L].
  - pose proof (walk_below (N.to_nat (size b)) (fun x => weight_ops w (ops_of b x)) [x]) as H.
    cbn [wsum fold_right] in H. unfold all_weight. etransitivity; [|apply H].
    + lia.
    + repeat constructor. intros [].
    + intros y [<-|[]]. lia.
  - rewrite ops_beyond by auto. cbn. lia.
Qed.
End Weights.

(** Where the operations of the blocks come from. *)
Lemma ops_from_op i b b' x j : binv b -> cfg_op i b = Some b' -> In j (ops_of b' x) -> In j (ops_of b x) \/ j = i.
Proof.
  intros B X I. destruct (instr_cases i) as [J|[->|[->|[->|P]]]].
  - destruct (jump_spec i b b' B J X) as (_ & _ & _ & A4 & _). rewrite A4 in I. auto.
  - cbn [cfg_op] in X. apply Some_inj in X. destruct (if_spec b B) as (_ & _ & _ & A4 & _). rewrite X, A4 in *. auto.
  - destruct (else_spec b b' B X) as (o & _ & _ & _ & _ & _ & A5 & _). rewrite A5 in I. auto.
  - destruct (exit_spec b b' B X) as (_ & _ & _ & _ & _ & A5 & _). rewrite A5 in I. auto.
  - destruct (plain_spec i b b' (bi_size b B) P X) as (_ & _ & _ & _ & _ & A6 & _). rewrite A6 in I.
    destruct (x =? current b); auto. apply in_app_or in I. destruct I as [|[|[]]]; auto.
Qed.
Lemma ops_from k : forall b bF x j, binv b -> cfg_ops k b = Some bF -> In j (ops_of bF x) -> In j (ops_of b x) \/ In j k.
Proof.
  induction k as [|i k IH]; intros b bF x j B H I; cbn [cfg_ops] in H.
  - apply Some_inj in H. subst. auto.
  - destruct (cfg_op i b) as [b1|] eqn:X; [|discriminate]. cbn [obind] in H.
    destruct (cfg_op_inv _ _ _ B X) as [B1 _]. destruct (IH b1 bF x j B1 H I) as [Y|Y]; [|right; now right].
    destruct (ops_from_op _ _ _ _ _ B X Y) as [Z| ->]; [auto|right; now left].
Qed.

Lemma walk_nodup_fwd bl a b l : fine_blocks bl -> walk (out_edge bl) a b l -> NoDup l /\ forall x, In x l -> a <= x.
Proof.
  intros F. induction 1 as [a|a b c l X W [IH1 IH2]].
  - split; [repeat constructor; intros []|]. intros x [<-|[]]. lia.
  - apply (fb_fwd bl F) in X. split.
    + constructor; auto. intros I. apply IH2 in I. lia.
    + intros x [<-|I]; [lia|]. apply IH2 in I. lia.
Qed.
Lemma walk_in_size bl a b l : fine_blocks bl -> a < nlen bl -> walk (out_edge bl) a b l -> forall x, In x l -> x < nlen bl.
Proof.
  intros F L W. induction W as [a|a b c l X W IH]; intros x [<-|I]; auto.
  - destruct I.
  - apply IH; auto. apply (fb_fwd bl F) in X. lia.
Qed.

(* ------------------------------------------------------------------------- *)
(** * Pricing one function *)

Section OneFunction.
Variables (p : program) (r : resolver) (fp : func_price) (f : N) (body : list instr).
Let w := weight_of p r fp.
Hypothesis Gf : get_func p f = Some body.
Hypothesis lf : loop_free p.
Hypothesis nested : well_nested [InBlock] body.
Hypothesis ordered : tidy (live p f body) [InBlock] body.
Hypothesis priced : forall t, In (Call t) body -> nth_error (p_imports p) (N.to_nat t) = None -> exists v, assoc t fp = Some v.
Hypothesis small : weight_ops w body <= u64_max.

Lemma sum_prices_total ops : (forall i, In i ops -> In i body) -> forall acc, acc + weight_ops w ops <= u64_max ->
  exists s, sum_prices p r fp acc ops = Some s.
Proof.
  induction ops as [|i ops IH]; intros I acc L; cbn [sum_prices]; [eauto|].
  cbn [weight_ops fold_right] in L. fold (weight_ops w ops) in L.
  assert (X : resolve_op p r fp i = Some (w i)).
  { unfold w, weight_of. destruct i; try reflexivity. cbn [resolve_op].
    destruct (nth_error (p_imports p) (N.to_nat target)) eqn:Im; auto.
    destruct (priced target) as [v ->]; auto. apply I. now left. }
  rewrite X. cbn [obind]. unfold add_usize. destruct (N.leb_spec (acc + w i) u64_max); [|lia]. cbn [obind].
  apply IH; [intros j Ij; apply I; now right|lia].
Qed.

Lemma weigh_blocks_total bl : (forall k, In k bl -> forall i, In i (bl_ops k) -> In i body) ->
  (forall k, In k bl -> weight_ops w (bl_ops k) <= u64_max) -> forall n g, exists g', weigh_blocks p r fp n bl g = Some g'.
Proof.
  induction bl as [|k bl IH]; intros I L n g; cbn [weigh_blocks]; [eauto|].
  destruct (sum_prices_total (bl_ops k) (I k (or_introl eq_refl)) 0) as [s X].
  { specialize (L k (or_introl eq_refl)). lia. }
  rewrite X. cbn [obind]. apply IH; intros; [eapply I|apply L]; eauto; now right.
Qed.

Lemma function_priced : exists v, compute_func_price p r fp f = Some v /\ v <= weight_ops w body.
Proof.
  destruct (nested_total body [InBlock] cfg_new cfg_new_inv sim_new (NLb p f body Gf lf) nested) as (bF & CF & J & D).
  destruct (cfg_ops_inv _ _ _ cfg_new_inv CF) as [BF GF]. pose proof (fine_final bF BF J D) as F.
  assert (From : forall x j, In j (ops_of bF x) -> In j body).
  { intros x j I. destruct (ops_from _ _ _ _ _ cfg_new_inv CF I) as [Y|]; auto.
    unfold ops_of, ops_in in Y. cbn in Y. destruct (N.to_nat x) as [|[|[|n]]]; destruct Y. }
  assert (Tot : all_weight w bF <= weight_ops w body).
  { pose proof (all_weight_ops w body cfg_new bF cfg_new_inv CF) as Y. change (all_weight w cfg_new) with 0 in Y. lia. }
  assert (InB : forall k, In k (cb_blocks bF) -> exists x, ops_of bF x = bl_ops k).
  { intros k I. apply In_nth_error in I. destruct I as [n I]. exists (N.of_nat n). unfold ops_of, ops_in.
    rewrite Nat2N.id, I. reflexivity. }
  assert (Gr : exists g, build_weighted_graph p r fp (cb_blocks bF) = Some g).
  { unfold build_weighted_graph.
    destruct (weigh_blocks_total (cb_blocks bF)) with (n := 0) (g := @nil (node node_weight)) as [g0 X].
    - intros k I i Ii. destruct (InB k I) as [x Q]. rewrite <- Q in Ii. eauto.
    - intros k I. destruct (InB k I) as [x Q]. rewrite <- Q. pose proof (block_below w bF x). lia.
    - rewrite X. cbn [obind]. apply (weigh_blocks_spec _ _ _ fp) in X; [|intros ? ? ?; auto].
      set (ws := numbered 0 (map (block_weight (weight_of p r fp)) (cb_blocks bF))) in *.
      destruct (build_weighted_spec ws (all_edges 0 (cb_blocks bF))) as (g' & A & _).
      { split; [apply numbered_nodup|]. intros a b I. apply all_edges_out, (fb_fwd _ F) in I. unfold ws. rewrite !numbered_in.
        unfold nlen in *. rewrite map_length. lia. }
      exists g'. rewrite link_blocks_spec. subst g0. exact A. }
  destruct Gr as [g Gr]. destruct (graph_spec p r fp fp _ _ F (fun _ _ x => x) Gr) as (Wg & Wt & Lg & Eg).
  assert (Ac : acyclic (edge g)).
  { eapply acyclic_ext; [|exact (fwd_acyclic _ F)]. intros a b. symmetry. apply Eg. }
  assert (Ws : forall a b l, walk (edge g) 0 b l -> a = 0 -> wsum (weight_in (numbered 0 (map (block_weight (weight_of p r fp)) (cb_blocks bF)))) l <= weight_ops w body).
  { intros a b l W ->. apply (walk_ext _ _ _ _ _ Eg) in W.
    rewrite (wsum_ext _ _ l (weights_at _ _)). etransitivity; [|exact Tot].
    destruct (walk_nodup_fwd _ _ _ _ F W) as [ND _].
    apply (walk_below (N.to_nat (size bF)) (fun x => weight_ops w (ops_of bF x)) l ND).
    intros x I. pose proof (walk_in_size _ _ _ _ F (fb_size _ F) W x I) as Y. unfold size. lia. }
  assert (To : forall y, R bF y -> y = 0 \/ leads (edge g) 0 y).
  { intros y [->|Y]; auto. right. eapply leads_mono; [|exact Y]. intros a b Z. now apply Eg. }
  destruct (max_path_total _ g 0 (nlen (cb_blocks bF) - 1) Wg Wt Ac) as [path P].
  - apply Lg. exact (fb_size _ F).
  - apply To. destruct (leads_to_last _ 0 F (fb_size _ F)) as [l W]. apply walk_leads in W.
    destruct W as [W|W]; [left; auto|right; exact W].
  - intros a b Z. apply To. apply Eg in Z. exact (tidy_edges p f body bF Gf lf CF nested ordered a b Z).
  - intros x l W. specialize (Ws 0 x l W eq_refl). lia.
  - exists (wp_total path). split.
    + unfold compute_func_price, build_func_cfg. rewrite Gf. cbn [obind]. rewrite CF. cbn [obind]. rewrite J, D. cbn [N.eqb obind].
      rewrite Gr. cbn [obind]. rewrite P. reflexivity.
    + destruct (max_path_sound _ g 0 _ path Wg Wt Ac P) as (l & Wl & _ & -> & _). exact (Ws 0 _ l Wl eq_refl).
Qed.
End OneFunction.

(* ------------------------------------------------------------------------- *)
(** * Pricing the program *)

Lemma weight_estimate p r fp B k :
  (forall t, In (Call t) k -> nth_error (p_imports p) (N.to_nat t) = None -> exists v, assoc t fp = Some v /\ v <= B t) ->
  weight_ops (weight_of p r fp) k <= total_charge (estimate p r B) k.
Proof.
  induction k as [|i k IH]; intros H; cbn [weight_ops total_charge fold_right]; [lia|].
  fold (weight_ops (weight_of p r fp) k) (total_charge (estimate p r B) k).
  assert (weight_ops (weight_of p r fp) k <= total_charge (estimate p r B) k) by (apply IH; intros; apply H; auto; now right).
  assert (weight_of p r fp i <= estimate p r B i); [|lia].
  unfold weight_of. destruct i; cbn [resolve_op estimate]; try reflexivity.
  destruct (nth_error (p_imports p) (N.to_nat target)) eqn:Im; [reflexivity|].
  destruct (H target) as (v & -> & L); auto. now left.
Qed.

Lemma price_functions_total p r B fs : forall fp,
  (forall f, In f fs -> exists body, get_func p f = Some body /\
     forall fp', (forall t, calls p f t -> exists v, assoc t fp' = Some v /\ v <= B t) ->
       exists v, compute_func_price p r fp' f = Some v /\ v <= B f) ->
  NoDup fs ->
  (forall k v, assoc k fp = Some v -> v <= B k) ->
  (forall i f t, nth_error fs i = Some f -> calls p f t ->
     (exists v, assoc t fp = Some v) \/ exists j, nth_error fs j = Some t /\ (j < i)%nat) ->
  exists pr, price_functions p r fs fp = Some pr /\ (forall k v, assoc k pr = Some v -> v <= B k).
Proof.
  induction fs as [|f fs IH]; intros fp One ND Bd Ord; cbn [price_functions]; [eauto|].
  destruct (One f (or_introl eq_refl)) as (body & G & C). destruct (C fp) as (v & Cv & Lv).
  { intros t Ct. destruct (Ord O f t eq_refl Ct) as [[v X]|(j & _ & L)]; [|lia]. eauto. }
  rewrite Cv. cbn [obind]. apply IH.
  - intros g I. apply One. now right.
  - now inversion ND.
  - intros k x X. rewrite assoc_put in X. destruct (N.eqb_spec k f) as [->|]; [apply Some_inj in X; now subst|eauto].
  - intros i g t X Ct. rewrite assoc_put. destruct (N.eqb_spec t f) as [->|D]; [left; eauto|].
    destruct (Ord (S i) g t X Ct) as [Y|([|j] & Y & L)]; auto.
    + cbn in Y. congruence.
    + right. exists j. split; [auto|lia].
Qed.

Lemma program_priced p r B : acceptable p -> NoDup (map fst (p_functions p)) ->
  (forall f t, calls p f t -> defined p t) ->
  (forall f body, get_func p f = Some body -> well_nested [InBlock] body /\ tidy (live p f body) [InBlock] body) ->
  affordable p r B ->
  exists pr, price_program p r = Some pr /\ forall f v, assoc f pr = Some v -> v <= B f.
Proof.
  intros (A1 & A2 & A3 & A4) ND Def Wn Aff. assert (LF : loop_free p) by (split; auto).
  unfold price_program. rewrite calls_functions_ops.
  assert (NS : no_self_edges (program_ops p (p_functions p))).
  { intros x X. apply program_edges in X. apply (A4 x). now constructor. }
  destruct (build_calls_spec _ [] wf_empty NS) as (g & Bg & W & L & Ed). rewrite Bg. cbn [obind]. unfold topological_sort.
  assert (EE : forall a b, edge g a b <-> calls p a b).
  { intros a b. rewrite Ed, program_edges. split; auto. intros [X|X]; auto. destruct X. }
  destruct (sort_spec g false W) as [(l & Es & Ac & T1 & T2 & T3)|(g' & l & _ & C & _)].
  2:{ destruct C as [x C]. destruct (A4 x). eapply leads_mono; [|exact C]. intros; now apply EE. }
  rewrite Es. cbn [obind].
  assert (Nl : forall f, In f (rev l) -> exists body, get_func p f = Some body).
  { intros f I. rewrite <- in_rev in I. apply T2, L in I.
    assert (Df : defined p f).
    { destruct I as [I|[]]. apply program_nodes in I. destruct I as [I|[h I]]; [auto|]. eapply Def; eauto. }
    unfold defined in Df. apply in_map_iff in Df. destruct Df as ([f0 body] & Q & I'). cbn in Q. subst f0.
    exists body. unfold get_func. apply in_assoc; auto. }
  apply price_functions_total with (B := B).
  - intros f I. destruct (Nl f I) as [body G]. exists body. split; [auto|]. intros fp Pr.
    destruct (Wn f body G) as [Wn1 Wn2]. destruct (Aff f body G) as [Le Lu].
    assert (Cl : forall t, In (Call t) body -> nth_error (p_imports p) (N.to_nat t) = None -> exists v, assoc t fp = Some v /\ v <= B t).
    { intros t It Im. apply Pr. split; [exists body; split; [now apply assoc_in|auto]|].
      apply nth_error_None in Im. unfold nlen. lia. }
    pose proof (weight_estimate p r fp B body Cl) as We.
    destruct (function_priced p r fp f body G LF Wn1 Wn2) as (v & Cv & Lv).
    + intros t It Im. destruct (Cl t It Im) as (v & X & _). eauto.
    + lia.
    + exists v. split; [auto|lia].
  - now apply NoDup_rev.
  - intros k v X. discriminate X.
  - intros i f t X Ct. right.
    assert (It : In t (rev l)).
    { rewrite <- in_rev. apply T2, L. left. apply program_nodes. right. eauto. }
    apply In_nth_error in It. destruct It as [j Xj]. exists j. split; [auto|].
    assert (Rl : forall n x, nth_error (rev l) n = Some x -> (n < length l)%nat /\ nth_error l (length l - S n) = Some x).
    { intros n x Z. assert (n < length (rev l))%nat by (apply nth_error_Some; congruence). rewrite rev_length in H.
      split; [auto|]. rewrite <- (rev_involutive l) at 1. 
      rewrite (nth_error_nth' _ x) by (rewrite !rev_length; lia). rewrite rev_nth by (rewrite rev_length; lia).
      rewrite rev_length. replace (length l - S (length l - S n))%nat with n by lia.
      f_equal. now apply nth_error_nth. }
    destruct (Rl i f X) as [Li Xi]. destruct (Rl j t Xj) as [Lj Xj'].
    apply EE in Ct. pose proof (T3 _ _ _ _ Xi Xj' Ct). lia.
Qed.
