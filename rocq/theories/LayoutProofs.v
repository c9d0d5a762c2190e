(** Lemmas about storage layouts. *)
From Coq Require Import List NArith ZArith Lia Bool.
From Coq Require Import ZifyBool ZifyNat ZifyN.
From Verif Require Import Base LayoutModel LayoutSpec.
Import ListNotations.
Open Scope N_scope.

Lemma total_app a b : total (a ++ b) = total a + total b.
Proof. induction a; cbn [total fold_right app] in *; unfold total in *; lia. Qed.

Lemma total_cons a b : total (a :: b) = a + total b.
Proof. reflexivity. Qed.

Lemma add_u32_some a b c : add_u32 a b = Some c <-> c = a + b /\ a + b <= u32_max.
Proof.
  unfold add_u32. destruct (N.leb_spec (a + b) u32_max); split; intros; try lia.
  - split; auto. congruence.
  - f_equal. lia.
  - discriminate.
Qed.

Lemma sizes_loop_inv first i off sizes vars :
  sizes_loop first i off sizes = Some vars ->
  length vars = length sizes /\
  (forall k v, nth_error vars k = Some v ->
     rv_id v = first + i + N.of_nat k /\ nth_error sizes k = Some (rv_size v)
     /\ rv_offset v = off + total (firstn k sizes))
  /\ (sizes <> [] -> first + i + nlen sizes - 1 <= u32_max /\ off + total sizes <= u32_max).
Proof.
  revert i off vars. induction sizes as [|s r IH]; intros i off vars; cbn [sizes_loop].
  - intros [= <-]. repeat split; auto; try congruence; destruct k; discriminate.
  - destruct (add_u32 first i) as [id|] eqn:E1; cbn [obind]; [|discriminate].
    destruct (add_u32 off s) as [off'|] eqn:E2; cbn [obind]; [|discriminate].
    destruct (sizes_loop first (i + 1) off' r) as [vs|] eqn:E3; cbn [obind]; [|discriminate].
    intros [= <-]. apply add_u32_some in E1 as [-> H1]. apply add_u32_some in E2 as [-> H2].
    destruct (IH _ _ _ E3) as (Hl & Hk & Hb).
    split; [simpl; congruence|]. split.
    + intros [|k] v; cbn [nth_error].
      * intros [= <-]. cbn. repeat split; auto; lia.
      * intros Hv. destruct (Hk _ _ Hv) as (? & ? & ?). cbn [firstn]. rewrite total_cons.
        repeat split; auto; lia.
    + intros _. destruct r as [|s' r'].
      * change (nlen [s]) with 1. rewrite total_cons. change (total []) with 0. lia.
      * destruct Hb as [Hb1 Hb2]; [discriminate|].
        rewrite nlen_cons. rewrite total_cons. rewrite nlen_cons in Hb1 |- *. lia.
Qed.

Lemma sizes_loop_some first i off sizes :
  (sizes <> [] -> first + i + nlen sizes - 1 <= u32_max) ->
  (sizes <> [] -> off + total sizes <= u32_max) ->
  exists vars, sizes_loop first i off sizes = Some vars.
Proof.
  revert i off. induction sizes as [|s r IH]; intros i off H1 H2; cbn [sizes_loop]; eauto.
  specialize (H1 ltac:(discriminate)). specialize (H2 ltac:(discriminate)).
  rewrite nlen_cons in H1. rewrite total_cons in H2.
  replace (add_u32 first i) with (Some (first + i)).
  2:{ symmetry. apply add_u32_some. split; [auto|lia]. }
  replace (add_u32 off s) with (Some (off + s)).
  2:{ symmetry. apply add_u32_some. split; [auto|lia]. }
  cbn [obind].
  destruct (IH (i + 1) (off + s)) as (vars & ->); [intros; lia|intros; lia|]. cbn [obind]. eauto.
Qed.

Lemma from_byte_sizes_defined first sizes :
  (exists l, from_byte_sizes first sizes = Some l) <->
  (sizes = [] \/ (first + nlen sizes - 1 <= u32_max /\ total sizes <= u32_max)).
Proof.
  unfold from_byte_sizes. split.
  - intros (l & H). destruct (sizes_loop first 0 0 sizes) as [vars|] eqn:E; cbn [obind] in H; [|discriminate].
    destruct (sizes_loop_inv _ _ _ _ _ E) as (_ & _ & Hb).
    destruct sizes; auto. right. destruct Hb; [discriminate|]. lia.
  - intros [->|[H1 H2]]; [eexists; reflexivity|].
    destruct (sizes_loop_some first 0 0 sizes) as (vars & ->); try (intros; lia). cbn [obind]. eauto.
Qed.

Lemma from_byte_sizes_inv first sizes l :
  from_byte_sizes first sizes = Some l ->
  fl_first l = Some first /\ length (fl_vars l) = length sizes
  /\ forall k v, nth_error (fl_vars l) k = Some v -> declared_var first sizes k v.
Proof.
  unfold from_byte_sizes.
  destruct (sizes_loop first 0 0 sizes) as [vars|] eqn:E; cbn [obind]; [|discriminate].
  intros [= <-]. cbn [fl_first fl_vars].
  destruct (sizes_loop_inv _ _ _ _ _ E) as (Hl & Hk & _).
  repeat split; auto; destruct (Hk _ _ H) as (? & ? & ?); auto; lia.
Qed.

Lemma layout_get_spec first sizes l id :
  from_byte_sizes first sizes = Some l ->
  match layout_get l id with
  | Some v => exists i, id = first + N.of_nat i /\ (i < length sizes)%nat /\ declared_var first sizes i v
  | None => id < first \/ first + nlen sizes <= id
  end.
Proof.
  intros H. destruct (from_byte_sizes_inv _ _ _ H) as (Hf & Hl & Hv).
  unfold layout_get, var_index. rewrite Hf. cbn [obind].
  destruct (N.ltb_spec id first); cbn [obind]; auto.
  destruct (Nat.ltb_spec (N.to_nat (id - first)) (length (fl_vars l))); cbn [obind].
  - destruct (nth_error (fl_vars l) (N.to_nat (id - first))) as [v|] eqn:E.
    + exists (N.to_nat (id - first)). repeat split; try lia; try apply Hv; auto.
    + apply nth_error_None in E. lia.
  - unfold nlen. lia.
Qed.

Lemma layout_get_declared first sizes l i :
  from_byte_sizes first sizes = Some l -> (i < length sizes)%nat ->
  exists v, layout_get l (first + N.of_nat i) = Some v /\ declared_var first sizes i v.
Proof.
  intros H Hi. pose proof (layout_get_spec first sizes l (first + N.of_nat i) H) as S.
  destruct (layout_get l (first + N.of_nat i)) as [v|].
  - destruct S as (j & Hj & _ & D). assert (j = i) by lia. subst. eauto.
  - unfold nlen in S. lia.
Qed.

Lemma total_firstn_le sizes i j : (i <= j)%nat -> total (firstn i sizes) <= total (firstn j sizes).
Proof.
  intros H. replace (firstn j sizes) with (firstn i sizes ++ skipn i (firstn j sizes)).
  - rewrite total_app. lia.
  - rewrite <- (firstn_skipn i (firstn j sizes)) at 2. now rewrite firstn_firstn, Nat.min_l by lia.
Qed.

Lemma total_firstn_S sizes i s :
  nth_error sizes i = Some s -> total (firstn (S i) sizes) = total (firstn i sizes) + s.
Proof.
  revert i. induction sizes as [|a r IH]; intros [|i]; cbn [nth_error]; try discriminate.
  - intros [= ->]. rewrite firstn_cons, total_cons. change (total (firstn 0 r)) with 0. change (total (firstn 0 (s :: r))) with 0. lia.
  - intros H. rewrite !firstn_cons, !total_cons. rewrite (IH _ H). lia.
Qed.

Lemma declared_disjoint first sizes i j vi vj b :
  declared_var first sizes i vi -> declared_var first sizes j vj ->
  covers vi b -> covers vj b -> i = j.
Proof.
  intros (_ & Si & Oi) (_ & Sj & Oj) [Ci1 Ci2] [Cj1 Cj2].
  destruct (Nat.lt_trichotomy i j) as [H|[H|H]]; auto; exfalso.
  - pose proof (total_firstn_le sizes (S i) j H). rewrite (total_firstn_S _ _ _ Si) in H0. lia.
  - pose proof (total_firstn_le sizes (S j) i H). rewrite (total_firstn_S _ _ _ Sj) in H0. lia.
Qed.

Lemma covered_exists sizes b : b < total sizes ->
  exists i s, nth_error sizes i = Some s /\ total (firstn i sizes) <= b < total (firstn i sizes) + s.
Proof.
  revert b. induction sizes as [|a r IH]; intros b H.
  - change (total []) with 0 in H. lia.
  - rewrite total_cons in H. destruct (N.lt_ge_cases b a).
    + exists O, a. split; auto. cbn [firstn]. change (total []) with 0. lia.
    + destruct (IH (b - a)) as (i & s & E & Hb); [lia|].
      exists (S i), s. split; auto. cbn [firstn]. rewrite total_cons. lia.
Qed.

Lemma layout_partition first sizes l :
  from_byte_sizes first sizes = Some l ->
  (* declared ids are found, with their declared size, and nothing else is *)
  (forall id v, layout_get l id = Some v <->
      exists i, id = first + N.of_nat i /\ nth_error (fl_vars l) i = Some v)
  /\ (forall i s, nth_error sizes i = Some s ->
        exists v, layout_get l (first + N.of_nat i) = Some v
          /\ rv_id v = first + N.of_nat i /\ rv_size v = s)
  (* every byte below the total size belongs to exactly one variable, no other byte to any *)
  /\ (forall b, b < total sizes -> exists id v, layout_get l id = Some v /\ covers v b)
  /\ (forall id v b, layout_get l id = Some v -> covers v b -> b < total sizes)
  /\ (forall id id' v v' b, layout_get l id = Some v -> layout_get l id' = Some v' ->
        covers v b -> covers v' b -> id = id').
Proof.
  intros H. destruct (from_byte_sizes_inv _ _ _ H) as (Hf & Hl & Hv).
  assert (G : forall id v, layout_get l id = Some v <->
      exists i, id = first + N.of_nat i /\ nth_error (fl_vars l) i = Some v).
  { intros id v. unfold layout_get, var_index. rewrite Hf. cbn [obind]. split.
    - destruct (N.ltb_spec id first); cbn [obind]; [discriminate|].
      destruct (Nat.ltb_spec (N.to_nat (id - first)) (length (fl_vars l))); cbn [obind]; [|discriminate].
      intros E. exists (N.to_nat (id - first)). split; auto. lia.
    - intros (i & -> & E).
      destruct (N.ltb_spec (first + N.of_nat i) first); [lia|].
      replace (N.to_nat (first + N.of_nat i - first)) with i by lia.
      destruct (Nat.ltb_spec i (length (fl_vars l))); cbn [obind]; auto.
      apply nth_error_None in H1. congruence. }
  split; [exact G|]. split; [|split; [|split]].
  - intros i s E.
    assert (i < length sizes)%nat by (apply nth_error_Some; congruence).
    destruct (layout_get_declared _ _ _ i H H0) as (v & Gv & (A & B & C)).
    exists v. repeat split; auto. congruence.
  - intros b Hb. destruct (covered_exists sizes b Hb) as (i & s & E & Hc).
    assert (i < length sizes)%nat by (apply nth_error_Some; congruence).
    destruct (layout_get_declared _ _ _ i H H0) as (v & Gv & (A & B & C)).
    exists (first + N.of_nat i), v. split; auto. unfold covers. rewrite C.
    assert (s = rv_size v) by congruence. subst. lia.
  - intros id v b Gv [C1 C2]. apply G in Gv as (i & -> & E).
    destruct (Hv _ _ E) as (A & B & C).
    pose proof (total_firstn_S _ _ _ B).
    pose proof (total_firstn_le sizes (S i) (length sizes)).
    rewrite firstn_all in H1.
    assert (i < length sizes)%nat by (apply nth_error_Some; congruence). lia.
  - intros id id' v v' b Gv Gv' Cv Cv'.
    apply G in Gv as (i & -> & E). apply G in Gv' as (j & -> & E').
    rewrite (declared_disjoint first sizes i j v v' b); auto.
Qed.
