(** Proofs about programs and the fixed-gas rules. *)
From Coq Require Import List NArith Arith Bool Lia.
From Verif Require Import Base ReceiptModel ReceiptProofs GraphModel GraphSpec GraphProofs ProgramModel ProgramSpec.
Import ListNotations.
Open Scope N_scope.

(* ------------------------------------------------------------------------- *)
(** * Validation and the call graph *)

(** The graph operations that the visitor performs. *)
Fixpoint body_ops (p : program) (f : N) (body : list instr) : list graph_op :=
  match body with
  | [] => []
  | Call t :: r => if is_imported p t then body_ops p f r else AddEdge f t :: body_ops p f r
  | _ :: r => body_ops p f r
  end.
Fixpoint program_ops (p : program) (fs : list (N * list instr)) : list graph_op :=
  match fs with
  | [] => []
  | (f, body) :: r => (AddNode f :: body_ops p f body) ++ program_ops p r
  end.

Lemma build_calls_app a b g : build_calls (a ++ b) g = let? g := build_calls a g in build_calls b g.
Proof.
  revert g. induction a as [|[l|x y] a IH]; intros g; cbn [app build_calls obind]; auto.
  destruct (add_call x y g); cbn [obind]; auto.
Qed.

(** An instruction that validation lets through in function [f]. *)
Definition fine (p : program) (f : N) (i : instr) : Prop :=
  match i with
  | Loop | CallIndirect _ => False
  | Call t => t <= u16_max /\ (is_imported p t = false -> t <> f)
  | _ => True
  end.

Lemma fine_dec p f i : fine p f i \/ ~ fine p f i.
Proof.
  destruct i; cbn [fine]; auto. destruct (N.le_gt_cases target u16_max) as [L|L].
  - destruct (is_imported p target); destruct (N.eq_dec target f); auto.
    + left. split; auto. discriminate.
    + right. intros [_ X]. now apply X.
  - right. intros [X _]. lia.
Qed.

Lemma validate_body_spec p f body : forall off g,
  (Forall (fine p f) body /\ exists g', validate_body p f off body g = Ok g' /\
     build_calls (body_ops p f body) g = Some g') \/
  (~ Forall (fine p f) body /\ exists e, validate_body p f off body g = Err e).
Proof.
  induction body as [|i r IH]; intros off g; cbn [validate_body].
  - left. split; auto. exists g. auto.
  - destruct (fine_dec p f i) as [F|F].
    + assert (exists g1, validate_op p f off i g = Ok g1 /\
        build_calls (body_ops p f (i :: r)) g = build_calls (body_ops p f r) g1) as (g1 & V & B).
      { destruct i; cbn [fine] in F; try tauto; try (exists g; split; reflexivity).
        destruct F as [F1 F2]. cbn [validate_op body_ops].
        rewrite (proj2 (N.leb_le _ _) F1). destruct (is_imported p target) eqn:Im.
        - exists g. auto.
        - specialize (F2 eq_refl). destruct (N.eqb_spec f target); [congruence|].
          unfold add_call at 1, add_edge. destruct (N.eqb_spec f target); [congruence|]. cbn [obind].
          eexists. split; [reflexivity|]. cbn [build_calls]. unfold add_call, add_edge.
          destruct (N.eqb_spec f target); [congruence|]. reflexivity. }
      rewrite V. cbn [bind]. destruct (IH (off + 1) g1) as [(Fr & g' & V' & B')|(Fr & e & V')].
      * left. split; [constructor; auto|]. exists g'. rewrite B. auto.
      * right. split; [|eauto]. intros X. inversion X. auto.
    + right. split.
      * intros X. inversion X; auto.
      * assert (exists e, validate_op p f off i g = Err e) as [e ->]; [|cbn [bind]; eauto].
        destruct i; cbn [fine] in F; try tauto; cbn [validate_op]; eauto.
        destruct (N.leb_spec target u16_max) as [L|L]; eauto.
        destruct (is_imported p target) eqn:Im; [exfalso; apply F; split; auto; discriminate|].
        destruct (N.eqb_spec f target); eauto. exfalso. apply F. split; auto.
Qed.

Lemma validate_functions_spec p fs : forall g,
  (Forall (fun fb => Forall (fine p (fst fb)) (snd fb)) fs /\ exists g', validate_functions p fs g = Ok g' /\
     build_calls (program_ops p fs) g = Some g') \/
  (~ Forall (fun fb => Forall (fine p (fst fb)) (snd fb)) fs /\ exists e, validate_functions p fs g = Err e).
Proof.
  induction fs as [|[f body] r IH]; intros g; cbn [validate_functions program_ops].
  - left. split; auto. exists g. auto.
  - destruct (validate_body_spec p f body 0 (add_target f g)) as [(F & g1 & V & B)|(F & e & V)]; rewrite V; cbn [bind].
    + destruct (IH g1) as [(Fr & g' & V' & B')|(Fr & e & V')].
      * left. split; [constructor; auto|]. exists g'. split; auto.
        rewrite build_calls_app. cbn [build_calls]. rewrite B. cbn [obind]. auto.
      * right. split; [|eauto]. intros X. inversion X. auto.
    + right. split; [|eauto]. intros X. inversion X. auto.
Qed.

Lemma body_ops_in p f body x : In x (body_ops p f body) <->
  exists t, x = AddEdge f t /\ In (Call t) body /\ is_imported p t = false.
Proof.
  induction body as [|i r IH].
  - simpl. split; [tauto|]. intros (t & _ & [] & _).
  - assert (X : (forall t, i <> Call t) -> body_ops p f (i :: r) = body_ops p f r).
    { intros N. destruct i; auto. now destruct (N target). }
    assert (Y : (forall t, i <> Call t) -> In x (body_ops p f (i :: r)) <->
      exists t, x = AddEdge f t /\ In (Call t) (i :: r) /\ is_imported p t = false).
    { intros N. rewrite X, IH by auto. split; intros (t & A & B & C); exists t; (split; [auto|split; [|auto]]).
      - now right.
      - destruct B as [B|B]; auto. now destruct (N t). }
    destruct i; try (apply Y; discriminate).
    cbn [body_ops]. destruct (is_imported p target) eqn:Im.
    + rewrite IH. split; intros (t & A & B & C); exists t; (split; [auto|split; [|auto]]).
      * now right.
      * destruct B as [B|B]; auto. congruence.
    + cbn [In]. rewrite IH. split.
      * intros [A|(t & A & B & C)]; [exists target|exists t]; auto.
      * intros (t & A & [B|B] & C); [left; congruence|right; eauto].
Qed.

Lemma imported_spec p t : is_imported p t = false <-> nlen (p_imports p) <= t.
Proof. unfold is_imported. apply N.ltb_ge. Qed.

Lemma program_ops_in p fs x : In x (program_ops p fs) <->
  (exists f body, In (f, body) fs /\ x = AddNode f) \/
  (exists f body t, In (f, body) fs /\ x = AddEdge f t /\ In (Call t) body /\ nlen (p_imports p) <= t).
Proof.
  induction fs as [|[f body] r IH]; cbn [program_ops].
  - simpl. split; [tauto|]. intros [(f & b & [] & _)|(f & b & t & [] & _)].
  - rewrite in_app_iff, IH. cbn [In]. rewrite body_ops_in. split.
    + intros [[A|(t & A & B & C)]|[(f' & b & A & B)|(f' & b & t & A & B)]].
      * left. exists f, body. auto.
      * right. exists f, body, t. rewrite <- imported_spec. auto.
      * left. exists f', b. auto.
      * right. exists f', b, t. tauto.
    + intros [(f' & b & [A|A] & B)|(f' & b & t & [A|A] & B & C & D)].
      * injection A as <- <-. auto.
      * right. left. eauto.
      * injection A as <- <-. left. right. exists t. rewrite imported_spec. auto.
      * right. right. exists f', b, t. auto.
Qed.

Lemma program_edges p a b : asked_edge (program_ops p (p_functions p)) a b <-> calls p a b.
Proof.
  unfold asked_edge, calls, occurs. rewrite program_ops_in. split.
  - intros [(f & bd & _ & X)|(f & bd & t & A & X & B & C)]; [discriminate|]. injection X as -> ->. eauto.
  - intros ((bd & A & B) & C). right. exists a, bd, b. auto.
Qed.

Lemma program_nodes p x : asked_node (program_ops p (p_functions p)) x <->
  defined p x \/ exists f, calls p f x.
Proof.
  unfold asked_node. rewrite program_ops_in. split.
  - intros [[(f & bd & A & X)|(f & bd & t & _ & X & _)]|(y & [X|X])].
    + injection X as ->. left. apply in_map_iff. exists (f, bd). auto.
    + discriminate.
    + apply program_edges in X. destruct X as ((bd & A & B) & C). left. apply in_map_iff. exists (x, bd). auto.
    + apply program_edges in X. eauto.
  - intros [X|[f X]].
    + apply in_map_iff in X. destruct X as ([y bd] & <- & A). left. left. eauto.
    + apply program_edges in X. eauto.
Qed.

Lemma fine_all p : Forall (fun fb => Forall (fine p (fst fb)) (snd fb)) (p_functions p) <->
  forall f i, occurs p f i -> fine p f i.
Proof.
  rewrite Forall_forall. split.
  - intros H f i (b & A & B). apply H in A. cbn [fst snd] in A. rewrite Forall_forall in A. auto.
  - intros H [f b] A. apply Forall_forall. intros i B. apply H. exists b. auto.
Qed.

(** The exact condition for acceptance. *)
Definition acceptable (p : program) : Prop :=
  (forall f, ~ occurs p f Loop) /\ (forall f t, ~ occurs p f (CallIndirect t)) /\
  (forall f t, occurs p f (Call t) -> t <= u16_max) /\ acyclic (calls p).

Lemma calls_not_self p : (forall f i, occurs p f i -> fine p f i) -> no_self_edges (program_ops p (p_functions p)).
Proof.
  intros F x X. apply program_edges in X. destruct X as [O I]. apply F in O. destruct O as [_ O].
  apply O; auto. now apply imported_spec.
Qed.

Lemma validate_spec p :
  (validate_wasm p false = Ok tt /\ acceptable p) \/
  (exists e, validate_wasm p false = Err e /\ ~ acceptable p).
Proof.
  unfold validate_wasm.
  destruct (validate_functions_spec p (p_functions p) []) as [(F & g & V & B)|(F & e & V)]; rewrite V; cbn [bind].
  - pose proof (proj1 (fine_all p) F) as F'.
    destruct (build_calls_spec _ [] wf_empty (calls_not_self p F')) as (g0 & B0 & W & L & Ed).
    rewrite B in B0. apply Some_inj in B0. subst g0.
    assert (EE : forall a b, edge g a b <-> calls p a b).
    { intros a b. rewrite Ed, program_edges. split; auto. intros [X|X]; auto. destruct X. }
    unfold find_cycles.
    destruct (sort_spec g false W) as [(l & -> & A & _)|(g' & l & _ & C & _ & _ & _ & _ & _ & _ & _ & ->)];
      cbn [obind].
    + left. split; auto. repeat split.
      * intros f O. now apply F' in O.
      * intros f t O. now apply F' in O.
      * intros f t O. apply F' in O. apply O.
      * eapply acyclic_ext; eauto.
    + right. eexists. split; [reflexivity|]. intros (_ & _ & _ & A). destruct C as [x C]. apply (A x).
      eapply leads_mono; [|exact C]. intros; now apply EE.
  - right. eexists. split; [reflexivity|]. intros (A1 & A2 & A3 & A4). apply F. apply fine_all.
    intros f i O. destruct i; cbn [fine]; auto.
    + eapply A1; eauto.
    + split; [eapply A3; eauto|]. intros Im ->. apply (A4 f). apply leads_one. split; auto. now apply imported_spec.
    + eapply A2; eauto.
Qed.

(** Acceptance does not depend on whether cycles are reported. *)
Lemma validate_ok_any p c : validate_wasm p c = Ok tt <-> validate_wasm p false = Ok tt.
Proof.
  unfold validate_wasm.
  destruct (validate_functions_spec p (p_functions p) []) as [(F & g & V & B)|(F & e & V)]; rewrite V; cbn [bind]; [|tauto].
  pose proof (proj1 (fine_all p) F) as F'.
  destruct (build_calls_spec _ [] wf_empty (calls_not_self p F')) as (g0 & B0 & W & L & Ed).
  rewrite B in B0. apply Some_inj in B0. subst g0. unfold find_cycles.
  destruct c; [|tauto].
  destruct (sort_spec g false W) as [(l & -> & A & _)|(g' & l & _ & C & _ & _ & _ & _ & _ & _ & _ & ->)];
  destruct (sort_spec g true W) as [(l2 & -> & A2 & _)|(g2 & l2 & _ & C2 & _ & _ & _ & _ & _ & _ & _ & ->)];
    cbn [obind]; try tauto.
  - destruct C2 as [x C2]. destruct (A x C2).
  - destruct C as [x C]. destruct (A2 x C).
  - destruct (derive_cycle g2); cbn [obind]; split; discriminate.
Qed.

(* ------------------------------------------------------------------------- *)
(** * Chains of calls *)

Lemma walk_reaches E a b l x : walk E a b l -> In x l -> x = a \/ leads E a x.
Proof.
  induction 1 as [a|a b c l X W IH]; intros I.
  - destruct I as [<-|[]]. auto.
  - destruct I as [<-|I]; auto. right. destruct (IH I) as [->|L]; [now apply leads_one|].
    eapply leads_step; eauto.
Qed.

Lemma acyclic_walk_nodup E a b l : acyclic E -> walk E a b l -> NoDup l.
Proof.
  intros A. induction 1 as [a|a b c l X W IH].
  - constructor; [simpl; tauto|constructor].
  - constructor; auto. intros I. apply (A a).
    destruct (walk_reaches _ _ _ _ _ W I) as [->|L]; [now apply leads_one|].
    eapply leads_step; eauto.
Qed.

Lemma walk_callers p a b l : walk (calls p) a b l -> forall x, In x (removelast l) -> defined p x.
Proof.
  induction 1 as [a|a b c l X W IH]; intros x I; [destruct I|].
  destruct (walk_head _ _ _ _ W) as [r ->]. cbn [removelast] in I. destruct I as [<-|I]; auto.
  destruct X as ((bd & A & B) & _). apply in_map_iff. exists (a, bd). auto.
Qed.

Lemma walk_short p a b l : acyclic (calls p) -> walk (calls p) a b l ->
  (length l <= S (length (p_functions p)))%nat.
Proof.
  intros A W. pose proof (acyclic_walk_nodup _ _ _ _ A W) as N.
  destruct l as [|x l]; [simpl; lia|].
  assert (E : x :: l = removelast (x :: l) ++ [last (x :: l) 0]) by (apply app_removelast_last; discriminate).
  rewrite E in N. apply NoDup_remove_1 in N. rewrite app_nil_r in N.
  assert (I : incl (removelast (x :: l)) (map fst (p_functions p))) by (intros y Y; eapply walk_callers; eauto).
  pose proof (NoDup_incl_length N I) as L. rewrite map_length in L. rewrite E, app_length. simpl (length [_]). lia.
Qed.

Lemma assoc_in {A} k (l : list (N * A)) a : assoc k l = Some a -> In (k, a) l.
Proof.
  induction l as [|[k' a'] l IH]; cbn [assoc]; [discriminate|].
  destruct (N.eqb_spec k' k).
  - intros X. apply Some_inj in X. subst. now left.
  - intros. right. auto.
Qed.

Lemma in_assoc {A} k (l : list (N * A)) a : NoDup (map fst l) -> In (k, a) l -> assoc k l = Some a.
Proof.
  induction l as [|[k' a'] l IH]; cbn [assoc map fst]; [intros _ []|].
  intros N [X|X]; inversion N; subst.
  - injection X as -> ->. now rewrite N.eqb_refl.
  - destruct (N.eqb_spec k' k); auto. subst. exfalso. apply H1. apply in_map_iff. exists (k, a). auto.
Qed.

(* ------------------------------------------------------------------------- *)
(** * Running code *)

Lemma after_end_after n m k c : after_end n k = Some c -> after_end m c = after_end (S n + m) k.
Proof.
  revert n m. induction k as [|i k IH]; intros n m H; cbn [after_end] in *; [discriminate|].
  destruct i; try (apply (IH n); exact H); try (apply (IH (S n)); exact H).
  destruct n; [apply Some_inj in H; now subst|]. apply (IH n). exact H.
Qed.

Definition suffix (c k : list instr) : Prop := exists pre, k = pre ++ c.

Lemma suffix_refl k : suffix k k.
Proof. exists []. auto. Qed.
Lemma suffix_cons i c k : suffix c k -> suffix c (i :: k).
Proof. intros [q ->]. exists (i :: q). auto. Qed.
Lemma suffix_trans a b c : suffix a b -> suffix b c -> suffix a c.
Proof. intros [q ->] [r ->]. exists (r ++ q). now rewrite app_assoc. Qed.
Lemma suffix_tail i c k : suffix (i :: c) k -> suffix c k.
Proof. intros [q ->]. exists (q ++ [i]). now rewrite <- app_assoc. Qed.

Lemma after_end_suffix k : forall n c, after_end n k = Some c -> suffix c k.
Proof.
  induction k as [|i k IH]; intros n c H; cbn [after_end] in *; [discriminate|].
  apply suffix_cons. destruct i; eauto. destruct n; eauto. apply Some_inj in H. subst. apply suffix_refl.
Qed.

Lemma on_false_else k : forall n k', on_false n k = Some (ToElse k') ->
  suffix k' k /\ forall m, after_end m k' = after_end (n + m) k.
Proof.
  induction k as [|i k IH]; intros n k' H; cbn [on_false after_end] in *; [discriminate|].
  destruct i; try (destruct (IH _ _ H) as [A B]; split; [now apply suffix_cons|exact B]).
  - destruct n.
    + injection H as ->. split; [apply suffix_cons, suffix_refl|auto].
    + destruct (IH _ _ H) as [A B]; split; [now apply suffix_cons|exact B].
  - destruct n; [discriminate|]. destruct (IH _ _ H) as [A B]; split; [now apply suffix_cons|].
    intros m. rewrite B. reflexivity.
Qed.

Lemma on_false_end k : forall n k', on_false n k = Some (ToEnd k') -> after_end n k = Some k'.
Proof.
  induction k as [|i k IH]; intros n k' H; cbn [on_false after_end] in *; [discriminate|].
  destruct i; auto.
  - destruct n; [discriminate|auto].
  - destruct n; auto. now injection H as ->.
Qed.

(** The labels of a frame are the continuations that the code determines. *)
Definition frame_ok (p : program) (fr : frame) : Prop :=
  (exists body, get_func p (fr_func fr) = Some body /\ suffix (fr_code fr) body) /\
  forall l c, nth_error (fr_labels fr) l = Some c -> after_end l (fr_code fr) = Some c.

Fixpoint linked (p : program) (st : list frame) : Prop :=
  match st with
  | a :: ((b :: _) as r) => calls p (fr_func b) (fr_func a) /\ linked p r
  | _ => True
  end.

Definition stack_ok p st := Forall (frame_ok p) st /\ linked p st.

Lemma linked_tail p a st : linked p (a :: st) -> linked p st.
Proof. destruct st; [intros; exact I|intros [_ H]; exact H]. Qed.

Lemma linked_same p a b st : fr_func a = fr_func b -> linked p (a :: st) -> linked p (b :: st).
Proof. intros E. destruct st; simpl; auto. now rewrite E. Qed.

Definition loop_free (p : program) : Prop :=
  (forall f, ~ occurs p f Loop) /\ (forall f t, ~ occurs p f (CallIndirect t)).

Lemma suffix_occurs p f i k body : get_func p f = Some body -> suffix (i :: k) body -> occurs p f i.
Proof.
  intros G [pre ->]. exists (pre ++ i :: k). split; [now apply assoc_in|]. apply in_elt.
Qed.

Lemma nth_error_skipn {A} n m (l : list A) : nth_error (skipn n l) m = nth_error l (n + m).
Proof. revert l. induction n; intros [|x l]; simpl; auto. destruct m; auto. Qed.

(** A taken branch lands on the continuation after its block. *)
Lemma branch_ok p f ls i k l fr :
  (forall n, after_end n (i :: k) = after_end n k) ->
  frame_ok p (mkFrame f ls (i :: k)) -> branch (mkFrame f ls k) l (Some fr) ->
  fr_func fr = f /\ after_end (N.to_nat l) k = Some (fr_code fr) /\ frame_ok p fr.
Proof.
  intros Ei [(body & G & Sf) L] B. inversion B; subst; cbn [fr_func fr_labels fr_code] in *.
  match goal with H : nth_error ls _ = Some _ |- _ => rename H into Hn end.
  pose proof (L _ _ Hn) as A. rewrite Ei in A. split; [auto|]. split; [auto|]. split; cbn [fr_func fr_labels fr_code].
  - exists body. split; auto. eapply suffix_trans; [eapply after_end_suffix; eauto|]. eapply suffix_tail; eauto.
  - intros m c' X. change (nth_error (skipn (S (N.to_nat l)) ls) m = Some c') in X.
    rewrite nth_error_skipn in X. rewrite (after_end_after _ m _ _ A).
    pose proof (L _ _ X) as Y. now rewrite Ei in Y.
Qed.

Lemma frame_next p f ls i k :
  (forall n, after_end n (i :: k) = after_end n k) ->
  frame_ok p (mkFrame f ls (i :: k)) -> frame_ok p (mkFrame f ls k).
Proof.
  intros Ei [(body & G & Sf) L]. split; cbn [fr_func fr_labels fr_code] in *.
  - exists body. split; auto. eapply suffix_tail; eauto.
  - intros l c X. rewrite <- Ei. auto.
Qed.

Lemma frame_scope p f ls i k c :
  (forall n, after_end n (i :: k) = after_end (S n) k) -> after_end 0 k = Some c ->
  frame_ok p (mkFrame f ls (i :: k)) -> frame_ok p (mkFrame f (c :: ls) k).
Proof.
  intros Ei A [(body & G & Sf) L]. split; cbn [fr_func fr_labels fr_code] in *.
  - exists body. split; auto. eapply suffix_tail; eauto.
  - intros [|l] c' X; cbn [nth_error] in X; [congruence|]. rewrite <- Ei. auto.
Qed.

Lemma step_ok p st i st' : loop_free p -> stack_ok p st -> step p st i st' -> stack_ok p st'.
Proof.
  intros [NL NC] [F K] H.
  destruct H; try (split; [constructor|exact I]);
    inversion F as [|? ? F1 F2]; subst; pose proof (linked_tail _ _ _ K) as Kt;
    destruct (proj1 F1) as (bd & G & Sf); cbn [fr_func fr_code] in G, Sf.
  - split; [constructor; auto; eapply frame_next; eauto; reflexivity|eapply linked_same; [|exact K]; reflexivity].
  - split; [constructor; auto; eapply frame_scope; eauto; reflexivity|eapply linked_same; [|exact K]; reflexivity].
  - destruct (NL f). eapply suffix_occurs; eauto.
  - split; [constructor; auto; eapply frame_scope; eauto; reflexivity|eapply linked_same; [|exact K]; reflexivity].
  - split; [constructor; auto|eapply linked_same; [|exact K]; reflexivity].
    destruct (on_false_else _ _ _ H0) as [S' A']. pose proof (frame_scope p f ls If k c (fun _ => eq_refl) H F1) as [_ L].
    split; cbn [fr_func fr_labels fr_code] in *.
    + exists bd. split; auto. eapply suffix_trans; eauto. eapply suffix_tail; eauto.
    + intros l c' X. rewrite A'. exact (L l c' X).
  - split; [constructor; auto|eapply linked_same; [|exact K]; reflexivity].
    apply on_false_end in H. destruct F1 as [_ L]. split; cbn [fr_func fr_labels fr_code] in *.
    + exists bd. split; auto. eapply suffix_trans; [eapply after_end_suffix; eauto|]. eapply suffix_tail; eauto.
    + intros l c' X. rewrite (after_end_after _ l _ _ H). exact (L l c' X).
  - split; [constructor; auto|eapply linked_same; [|exact K]; reflexivity].
    destruct F1 as [_ L]. pose proof (L O c eq_refl) as A. cbn [fr_code after_end] in A.
    split; cbn [fr_func fr_labels fr_code] in *.
    + exists bd. split; auto. eapply suffix_trans; [eapply after_end_suffix; eauto|]. eapply suffix_tail; eauto.
    + intros l c' X. rewrite (after_end_after _ l _ _ A). exact (L (S l) c' X).
  - split; [constructor; auto|eapply linked_same; [|exact K]; reflexivity].
    destruct F1 as [_ L]. split; cbn [fr_func fr_labels fr_code] in *.
    + exists bd. split; auto. eapply suffix_tail; eauto.
    + intros l c' X. exact (L (S l) c' X).
  - split; auto.
  - destruct fr as [fr|]; cbn [push]; [|split; auto].
    destruct (branch_ok p f ls (Br l) k l fr (fun _ => eq_refl) F1 H) as (Ef & _ & O).
    split; [constructor; auto|eapply linked_same; [|exact K]; auto].
  - destruct fr as [fr|]; cbn [push]; [|split; auto].
    destruct (branch_ok p f ls (BrIf l) k l fr (fun _ => eq_refl) F1 H) as (Ef & _ & O).
    split; [constructor; auto|eapply linked_same; [|exact K]; auto].
  - split; [constructor; auto; eapply frame_next; eauto; reflexivity|eapply linked_same; [|exact K]; reflexivity].
  - destruct fr as [fr|]; cbn [push]; [|split; auto].
    destruct (branch_ok p f ls (BrTable t d) k l fr (fun _ => eq_refl) F1 H0) as (Ef & _ & O).
    split; [constructor; auto|eapply linked_same; [|exact K]; auto].
  - split; auto.
  - split.
    + constructor; [|constructor; auto; eapply frame_next; eauto; reflexivity].
      split; cbn [fr_func fr_labels fr_code]; [exists body; split; auto; apply suffix_refl|].
      intros l c X. destruct l; discriminate.
    + split; [cbn [fr_func]; split; auto; eapply suffix_occurs; eauto|].
      eapply linked_same; [|exact K]; reflexivity.
  - split; [constructor; auto; eapply frame_next; eauto; reflexivity|eapply linked_same; [|exact K]; reflexivity].
  - destruct (NC f t). eapply suffix_occurs; eauto.
  - destruct (NC f t). eapply suffix_occurs; eauto.
Qed.

Lemma enters_ok p f st : enters p f st -> stack_ok p st.
Proof.
  intros (body & G & ->). split; [|exact I]. constructor; [|constructor]. split; cbn [fr_func fr_labels fr_code].
  - exists body. split; auto. apply suffix_refl.
  - intros l c X. destruct l; discriminate.
Qed.

Lemma run_ok p st is st' : loop_free p -> run p st is st' -> stack_ok p st -> stack_ok p st'.
Proof. intros LF. induction 1; auto. intros. apply IHrun. eapply step_ok; eauto. Qed.

(** The functions of the stack form a chain of calls. *)
Lemma stack_chain p st : linked p st -> forall a r, st = a :: r ->
  exists b, walk (calls p) b (fr_func a) (rev (map fr_func st)).
Proof.
  induction st as [|a st IH]; intros K a0 r E; [discriminate|]. injection E as -> ->.
  destruct r as [|b r].
  - exists (fr_func a0). simpl. constructor.
  - destruct K as [C K]. destruct (IH K b r eq_refl) as [x W].
    exists x. cbn [map rev] in *. eapply walk_snoc; eauto.
Qed.

Lemma stack_depth p st : acyclic (calls p) -> stack_ok p st -> (length st <= length (p_functions p))%nat.
Proof.
  intros A [F K]. destruct st as [|a r]; [simpl; lia|].
  destruct (stack_chain p _ K a r eq_refl) as [b W].
  pose proof (acyclic_walk_nodup _ _ _ _ A W) as N.
  assert (I : incl (rev (map fr_func (a :: r))) (map fst (p_functions p))).
  { intros x X. apply in_rev in X. apply in_map_iff in X. destruct X as (fr & <- & X).
    rewrite Forall_forall in F. destruct (F _ X) as [(body & G & _) _].
    apply assoc_in in G. apply in_map_iff. exists (fr_func fr, body). auto. }
  pose proof (NoDup_incl_length N I) as L. now rewrite rev_length, !map_length in L.
Qed.

(* ------------------------------------------------------------------------- *)
(** * Work *)

(** Weights of instructions, where a call weighs what the callee does. *)
Definition weigh (p : program) (base : instr -> N) (T : N -> N) (i : instr) : N :=
  base i + match i with Call g => if is_imported p g then 0 else T g | _ => 0 end.
Definition weigh_all p base T (k : list instr) : N := fold_right (fun i s => weigh p base T i + s) 0 k.

Fixpoint work (p : program) (base : instr -> N) (n : nat) (f : N) : N :=
  match n with
  | O => 0
  | S n => match get_func p f with Some body => weigh_all p base (work p base n) body | None => 0 end
  end.

Lemma weigh_all_ext p base T T' k :
  (forall g, In (Call g) k -> is_imported p g = false -> T g = T' g) -> weigh_all p base T k = weigh_all p base T' k.
Proof.
  induction k as [|i k IH]; intros H; cbn [weigh_all fold_right]; auto.
  fold (weigh_all p base T k) (weigh_all p base T' k). rewrite IH.
  - f_equal. unfold weigh. f_equal. destruct i; auto. destruct (is_imported p target) eqn:E; auto. apply H; auto. now left.
  - intros g X. apply H. now right.
Qed.

Lemma work_stable p base n : forall f, (forall b l, walk (calls p) f b l -> (length l <= n)%nat) ->
  work p base (S n) f = work p base n f.
Proof.
  induction n as [|n IH]; intros f H.
  - pose proof (H f [f] (walk_here _ _)) as X. simpl in X. lia.
  - change (match get_func p f with Some body => weigh_all p base (work p base (S n)) body | None => 0 end
          = match get_func p f with Some body => weigh_all p base (work p base n) body | None => 0 end).
    destruct (get_func p f) as [body|] eqn:G; auto. apply weigh_all_ext. intros g X Im. apply IH.
    intros b l W. assert (C : calls p f g).
    { split; [exists body; split; auto; now apply assoc_in|now apply imported_spec]. }
    pose proof (H b (f :: l) (walk_next _ _ _ _ _ C W)) as Y. simpl in Y. lia.
Qed.

(** For acyclic programs the weights have a solution. *)
Lemma work_solution p base : acyclic (calls p) ->
  exists T, forall f body, get_func p f = Some body -> T f = weigh_all p base T body.
Proof.
  intros A. exists (work p base (S (length (p_functions p)))). intros f body G.
  cbn [work]. rewrite G. apply weigh_all_ext. intros g X Im. symmetry. apply work_stable.
  intros b l W. assert (C : calls p f g).
  { split; [exists body; split; auto; now apply assoc_in|now apply imported_spec]. }
  pose proof (walk_short p _ _ _ A (walk_next _ _ _ _ _ C W)) as Y. simpl in Y. lia.
Qed.

Lemma weigh_all_suffix p base T c k : suffix c k -> weigh_all p base T c <= weigh_all p base T k.
Proof.
  intros [pre ->]. induction pre as [|i pre IH]; cbn [app weigh_all fold_right]; [reflexivity|].
  fold (weigh_all p base T (pre ++ c)). lia.
Qed.

Definition stack_weight p base T (st : list frame) : N :=
  fold_right (fun fr s => weigh_all p base T (fr_code fr) + s) 0 st.

(** Each step uses up at least the weight of its instruction. *)
Lemma step_weight p base T st i st' :
  loop_free p -> stack_ok p st ->
  (forall f body, get_func p f = Some body -> weigh_all p base T body <= T f) ->
  step p st i st' -> stack_weight p base T st' + base i <= stack_weight p base T st.
Proof.
  intros [NL NC] [F K] TT H.
  assert (C : forall j k, weigh_all p base T (j :: k) = weigh p base T j + weigh_all p base T k) by reflexivity.
  assert (CS : forall fr r, stack_weight p base T (fr :: r) = weigh_all p base T (fr_code fr) + stack_weight p base T r) by reflexivity.
  assert (BW : forall f ls j k l fr st, (forall n, after_end n (j :: k) = after_end n k) ->
     frame_ok p (mkFrame f ls (j :: k)) -> branch (mkFrame f ls k) l fr ->
     stack_weight p base T (push fr st) <= weigh_all p base T k + stack_weight p base T st).
  { intros f ls j k l fr st0 Ei Fo B. destruct fr as [fr|]; cbn [push]; [|lia].
    destruct (branch_ok p f ls j k l fr Ei Fo B) as (_ & A & _).
    rewrite CS. apply after_end_suffix, (weigh_all_suffix p base T) in A. lia. }
  destruct H; inversion F as [|? ? F1 F2]; subst; rewrite !CS; cbn [fr_code];
    try change (stack_weight p base T []) with 0;
    try (rewrite C; unfold weigh at 1; lia).
  - destruct (on_false_else _ _ _ H0) as [S' _]. apply (weigh_all_suffix p base T) in S'. rewrite C. unfold weigh at 1. lia.
  - apply on_false_end, after_end_suffix, (weigh_all_suffix p base T) in H. rewrite C. unfold weigh at 1. lia.
  - destruct F1 as [_ L]. pose proof (L O c eq_refl) as A. cbn [fr_code after_end] in A.
    apply after_end_suffix, (weigh_all_suffix p base T) in A. rewrite C. unfold weigh at 1. lia.
  - pose proof (BW f ls (Br l) k l fr st (fun _ => eq_refl) F1 H). rewrite C. unfold weigh at 1. lia.
  - pose proof (BW f ls (BrIf l) k l fr st (fun _ => eq_refl) F1 H). rewrite C. unfold weigh at 1. lia.
  - pose proof (BW f ls (BrTable t d) k l fr st (fun _ => eq_refl) F1 H0). rewrite C. unfold weigh at 1. lia.
  - rewrite C. unfold weigh at 1. rewrite (proj2 (imported_spec p g) H). pose proof (TT g body H0). lia.
  - destruct (proj1 F1) as (bd & G & Sf). destruct (NC f t). eapply suffix_occurs; eauto.
Qed.

Definition cost (base : instr -> N) (is : list instr) : N := fold_right (fun i s => base i + s) 0 is.

Lemma run_weight p base T st is st' :
  loop_free p -> (forall f body, get_func p f = Some body -> weigh_all p base T body <= T f) ->
  run p st is st' -> stack_ok p st ->
  stack_weight p base T st' + cost base is <= stack_weight p base T st.
Proof.
  intros LF TT R. induction R as [st|st i st1 is st2 S R IH]; intros O; cbn [cost fold_right].
  - lia.
  - fold (cost base is). pose proof (step_weight _ _ _ _ _ _ LF O TT S).
    pose proof (IH (step_ok _ _ _ _ LF O S)). lia.
Qed.

Lemma cost_one is : cost (fun _ => 1) is = nlen is.
Proof. induction is; cbn [cost fold_right]; [reflexivity|]. fold (cost (fun _ => 1) is). rewrite IHis, nlen_cons. auto. Qed.

(* ------------------------------------------------------------------------- *)
(** * Reading programs *)

Lemma number_functions_spec bodies : forall i f b, In (f, b) (number_functions i bodies) <->
  exists n, nth_error bodies n = Some b /\ f = i + N.of_nat n.
Proof.
  induction bodies as [|x r IH]; intros i f b; cbn [number_functions].
  - split; [intros []|]. intros ([|n] & H & _); discriminate.
  - cbn [In]. rewrite IH. split.
    + intros [E|(n & A & B)].
      * injection E as -> ->. exists O. split; [reflexivity|]. simpl. lia.
      * exists (S n). split; [exact A|]. lia.
    + intros ([|n] & A & B); cbn [nth_error] in A.
      * left. apply Some_inj in A. subst. f_equal. simpl. lia.
      * right. exists n. split; auto. lia.
Qed.

Lemma number_functions_length bodies i : length (number_functions i bodies) = length bodies.
Proof. revert i. induction bodies; intros; simpl; auto. Qed.

Lemma number_functions_nodup bodies : forall i, NoDup (map fst (number_functions i bodies)).
Proof.
  induction bodies as [|x r IH]; intros i; cbn [number_functions map fst]; constructor; auto.
  intros X. apply in_map_iff in X. destruct X as ([f b] & E & X). cbn [fst] in E.
  apply number_functions_spec in X. destruct X as (n & _ & X). lia.
Qed.

Lemma program_new_inv m v p : program_new m v = Ok p ->
  exists md code, m = Some md /\ m_code md = Some code /\
    p_imports p = import_names (entries (m_imports md)) /\ nlen (p_imports p) <= u16_max /\
    p_functions p = number_functions (nlen (p_imports p)) code /\
    nlen (p_functions p) <= u16_max /\
    (forall f i, occurs p f i -> refused_instr i = false) /\
    (v = true -> module_validate_exports md = Ok tt).
Proof.
  unfold program_new. destruct m as [md|]; [|discriminate].
  destruct (m_code md) as [code|] eqn:Ec; [|discriminate].
  destruct (read_imports md) as [im|e|] eqn:Ei; cbn [bind]; try discriminate.
  set (q := mkProgram im (read_exports (entries (m_exports md)) []) (number_functions (nlen im) code)).
  unfold validate_no_floats.
  destruct (existsb (fun f => existsb refused_instr (snd f)) (p_functions q)) eqn:Ef; cbn [bind]; [discriminate|].
  destruct (if v then module_validate_exports md else Ok tt) as [u|e|] eqn:Ev; cbn [bind]; try discriminate.
  destruct (N.ltb_spec u16_max (nlen (p_functions q))) as [L|L]; [discriminate|].
  intros H. injection H as <-. exists md, code. do 2 (split; [auto|]).
  assert (Q : im = import_names (entries (m_imports md)) /\ nlen im <= u16_max).
  { unfold read_imports in Ei. destruct (m_imports md) as [l|]; cbn [entries].
    - destruct (N.leb_spec (nlen (import_names l)) u16_max); [|discriminate]. injection Ei as <-. auto.
    - injection Ei as <-. split; [reflexivity|]. unfold nlen, u16_max. simpl. lia. }
  destruct Q as [Q1 Q2]. do 2 (split; [auto|]). split; [reflexivity|]. split; [auto|]. split.
  - intros f i (b & A & B). destruct (refused_instr i) eqn:E; auto. exfalso.
    assert (X : existsb (fun f => existsb refused_instr (snd f)) (p_functions q) = true); [|congruence].
    apply existsb_exists. exists (f, b). split; auto. cbn [snd]. apply existsb_exists. eauto.
  - intros ->. destruct u. auto.
Qed.

Lemma program_new_nodup m v p : program_new m v = Ok p -> NoDup (map fst (p_functions p)).
Proof.
  intros H. destruct (program_new_inv _ _ _ H) as (md & code & _ & _ & _ & _ & E & _).
  rewrite E. apply number_functions_nodup.
Qed.

Lemma value_types_eqb_spec a b : value_types_eqb a b = true <-> a = b.
Proof.
  revert b. induction a as [|x a IH]; intros [|y b]; cbn [value_types_eqb]; try (split; [discriminate|congruence]); [tauto|].
  rewrite andb_true_iff, IH. split.
  - intros [H ->]. destruct x, y; cbn in H; congruence.
  - intros [= -> ->]. split; auto. destruct y; reflexivity.
Qed.

Lemma function_imports_spec md : function_imports md = nlen (import_names (entries (m_imports md))).
Proof.
  unfold function_imports. induction (entries (m_imports md)) as [|[[a b] k] l IH]; [reflexivity|].
  destruct k; cbn [filter import_names snd]; rewrite ?nlen_cons; lia.
Qed.

Lemma validate_sig_ok md name kind ps rs :
  validate_func_signature name kind (nlen (import_names (entries (m_imports md)))) (entries (m_functions md))
    (entries (m_types md)) ps rs = Ok tt -> export_type md kind (ps, rs).
Proof.
  unfold validate_func_signature, export_func_signature. destruct kind as [g| | |]; cbn [bind]; try discriminate.
  destruct (N.leb_spec (nlen (import_names (entries (m_imports md)))) g) as [L|L]; cbn [bind]; [|discriminate].
  destruct (nth_error (entries (m_functions md)) _) as [ref|] eqn:En; cbn [bind]; [|discriminate].
  destruct (nth_error (entries (m_types md)) (N.to_nat ref)) as [[a b]|] eqn:Et; cbn [bind]; [|discriminate].
  destruct (value_types_eqb _ ps && value_types_eqb _ rs) eqn:E; [|discriminate]. intros _.
  apply andb_true_iff in E. rewrite !value_types_eqb_spec in E. cbn [fst snd] in E. destruct E as [-> ->].
  eexists g, _, ref. split; [auto|]. split; [|eauto]. rewrite function_imports_spec, N2Nat.id. lia.
Qed.

Lemma names_differ : svm_alloc_name <> svm_verify_name.
Proof. vm_compute. discriminate. Qed.

Lemma check_exports_ok md l : forall a v a' v',
  check_exports l (nlen (import_names (entries (m_imports md)))) (entries (m_functions md)) (entries (m_types md)) a v
    = Ok (a', v') ->
  (forall kind, In (svm_alloc_name, kind) l -> export_type md kind ([I32], [I32])) /\
  (forall kind, In (svm_verify_name, kind) l -> export_type md kind ([], [I32])) /\
  (a' = true -> a = true \/ exists kind, In (svm_alloc_name, kind) l) /\
  (v' = true -> v = true \/ exists kind, In (svm_verify_name, kind) l).
Proof.
  induction l as [|[name kind] l IH]; intros a v a' v' H; cbn [check_exports] in H.
  - injection H as <- <-. repeat split; auto; intros ? [].
  - destruct (bytes_eqb name svm_alloc_name) eqn:E1.
    + apply bytes_eqb_spec in E1. subst name.
      destruct (validate_func_signature svm_alloc_name kind _ _ _ _ _) as [[]|e|] eqn:V; cbn [bind] in H; try discriminate.
      destruct (IH _ _ _ _ H) as (A & B & C & D). repeat split.
      * intros k [X|X]; auto. injection X as ->. eapply validate_sig_ok; eauto.
      * intros k [X|X]; auto. exfalso. injection X as X _. now apply names_differ.
      * intros X. right. exists kind. now left.
      * intros X. destruct (D X) as [?|[k ?]]; auto. right. exists k. now right.
    + destruct (bytes_eqb name svm_verify_name) eqn:E2.
      * apply bytes_eqb_spec in E2. subst name.
        destruct (validate_func_signature svm_verify_name kind _ _ _ _ _) as [[]|e|] eqn:V; cbn [bind] in H; try discriminate.
        destruct (IH _ _ _ _ H) as (A & B & C & D). repeat split.
        -- intros k [X|X]; auto. exfalso. injection X as X _. now apply names_differ.
        -- intros k [X|X]; auto. injection X as ->. eapply validate_sig_ok; eauto.
        -- intros X. destruct (C X) as [?|[k ?]]; auto. right. exists k. now right.
        -- intros X. right. exists kind. now left.
      * destruct (IH _ _ _ _ H) as (A & B & C & D).
        assert (N1 : name <> svm_alloc_name) by (intros ->; now rewrite (proj2 (bytes_eqb_spec _ _) eq_refl) in E1).
        assert (N2 : name <> svm_verify_name) by (intros ->; now rewrite (proj2 (bytes_eqb_spec _ _) eq_refl) in E2).
        repeat split.
        -- intros k [X|X]; auto. congruence.
        -- intros k [X|X]; auto. congruence.
        -- intros X. destruct (C X) as [?|[k ?]]; auto. right. exists k. now right.
        -- intros X. destruct (D X) as [?|[k ?]]; auto. right. exists k. now right.
Qed.
