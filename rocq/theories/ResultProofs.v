(** Ownership of results. *)
From Coq Require Import List NArith Arith Bool Lia ZifyBool ZifyNat ZifyN.
From Verif Require Import Base ResultModel ResultSpec.
Import ListNotations.
Open Scope N_scope.

Lemma store_same h p b : store_at h p b p = b. Proof. unfold store_at. now rewrite N.eqb_refl. Qed.
Lemma store_other h p b q : q <> p -> store_at h p b q = h q.
Proof. intros E. unfold store_at. destruct (N.eqb_spec q p); [congruence|reflexivity]. Qed.
Lemma nth_set_same {A} i (x : A) l : (i < length l)%nat -> nth_error (set_slot i x l) i = Some x.
Proof. revert i. induction l as [|y l IH]; intros [|i] L; cbn in *; try lia; [reflexivity|apply IH; lia]. Qed.
Lemma nth_set_other {A} i j (x : A) l : i <> j -> nth_error (set_slot i x l) j = nth_error l j.
Proof. revert i j. induction l as [|y l IH]; intros [|i] [|j] E; cbn; try reflexivity; try congruence; try (apply IH; lia). Qed.
Lemma set_length {A} i (x : A) l : length (set_slot i x l) = length l.
Proof. revert i. induction l as [|y l IH]; intros [|i]; cbn; auto. Qed.
Lemma slot_set_same {A} i (l : list (option A)) : slot (set_slot i None l) i = None.
Proof.
  unfold slot. destruct (Nat.lt_ge_cases i (length l)) as [L|L]; [now rewrite nth_set_same|].
  destruct (nth_error (set_slot i None l) i) eqn:E; [|reflexivity]. assert (i < length (set_slot i None l))%nat by (apply nth_error_Some; congruence). rewrite set_length in *. lia.
Qed.
Lemma slot_set_other {A} i j (l : list (option A)) : i <> j -> slot (set_slot i None l) j = slot l j.
Proof. intros E. unfold slot. now rewrite nth_set_other. Qed.
Lemma slot_snoc {A} (l : list (option A)) x j : slot (l ++ [x]) j = if Nat.eqb j (length l) then x else slot l j.
Proof.
  unfold slot. destruct (Nat.eqb_spec j (length l)) as [->|E].
  - rewrite nth_error_app2, Nat.sub_diag by lia. cbn. now destruct x.
  - destruct (Nat.lt_ge_cases j (length l)) as [L|L]; [now rewrite nth_error_app1|].
    replace (nth_error l j) with (@None (option A)) by (symmetry; apply nth_error_None; lia).
    replace (nth_error (l ++ [x]) j) with (@None (option A)); [reflexivity|]. symmetry. apply nth_error_None. rewrite app_length. cbn. lia.
Qed.

(** The block a result owns. *)
Definition owns (r : svm_result) (c : content) (p : N) (d : bytes) : Prop :=
  d <> [] /\ rs_size r = nlen d /\ 1 < p /\
  match c with
  | COk => False
  | CErr d' => d' = d /\ rs_error r = p
  | CReceipt d' => d' = d /\ rs_receipt r = p
  end.
Definition shape (r : svm_result) (c : content) : Prop :=
  match c with
  | COk => r = result_ok
  | CErr d => rs_receipt r = 0 /\ rs_error r <> 0 /\ rs_size r = nlen d /\ (d <> [] -> 1 < rs_error r)
  | CReceipt d => rs_error r = 0 /\ rs_receipt r <> 0 /\ rs_size r = nlen d /\ (d <> [] -> 1 < rs_receipt r)
  end.
Record sound (h : memory) (rs : list (option svm_result)) (cs : list (option content)) : Prop := {
  so_length : length rs = length cs;
  so_shape : forall i, match slot rs i, slot cs i with Some r, Some c => shape r c | None, None => True | _, _ => False end;
  so_owned : forall i r c p d, slot rs i = Some r -> slot cs i = Some c -> owns r c p d -> h p = Some d;
  so_owner : forall p d, h p = Some d -> exists i r c, slot rs i = Some r /\ slot cs i = Some c /\ owns r c p d;
  so_apart : forall i j r r' c c' p d d', slot rs i = Some r -> slot cs i = Some c -> owns r c p d ->
    slot rs j = Some r' -> slot cs j = Some c' -> owns r' c' p d' -> i = j }.

Lemma sound_start : sound empty_memory [] [].
Proof.
  split; [reflexivity|..]; try (intros i; unfold slot; destruct i; cbn; auto; discriminate); try discriminate.
Qed.

Lemma nlen_nil_iff (d : bytes) : nlen d = 0 <-> d = [].
Proof. destruct d; [split; reflexivity|]. rewrite nlen_cons. split; [lia|discriminate]. Qed.

Lemma drop_sound h rs cs i r c : sound h rs cs -> slot rs i = Some r -> slot cs i = Some c ->
  exists h', drop_result h r = Some h' /\ sound h' (set_slot i None rs) (set_slot i None cs).
Proof.
  intros So Er Ec. pose proof (so_shape _ _ _ So i) as Sh. rewrite Er, Ec in Sh.
  assert (D : (exists p d, owns r c p d /\ drop_result h r = Some (store_at h p None)) \/ ((forall p d, ~ owns r c p d) /\ drop_result h r = Some h)).
  { unfold drop_result, drop_vec. destruct c as [|d|d]; cbn [shape] in Sh.
    - right. split; [intros p d (_ & _ & _ & [])|]. subst r. reflexivity.
    - destruct Sh as (A & B & Sz & C). rewrite A, Sz. destruct (N.eqb_spec (nlen d) 0) as [Z|Z].
      + right. apply nlen_nil_iff in Z. split; [|reflexivity]. intros p d' (X & _ & _ & <- & _). congruence.
      + left. assert (Nd : d <> []) by (intros ->; apply Z; reflexivity). exists (rs_error r), d.
        assert (O : owns r (CErr d) (rs_error r) d) by (split; [exact Nd|]; auto). split; [exact O|]. cbn [N.eqb].
        destruct (N.eqb_spec (rs_error r) 0); [congruence|]. rewrite (so_owned _ _ _ So i r (CErr d) _ _ Er Ec O), N.eqb_refl. reflexivity.
    - destruct Sh as (A & B & Sz & C). rewrite A, Sz. destruct (N.eqb_spec (nlen d) 0) as [Z|Z].
      + right. apply nlen_nil_iff in Z. split; [|reflexivity]. intros p d' (X & _ & _ & <- & _). congruence.
      + left. assert (Nd : d <> []) by (intros ->; apply Z; reflexivity). exists (rs_receipt r), d.
        assert (O : owns r (CReceipt d) (rs_receipt r) d) by (split; [exact Nd|]; auto). split; [exact O|].
        destruct (N.eqb_spec (rs_receipt r) 0); [congruence|]. rewrite (so_owned _ _ _ So i r (CReceipt d) _ _ Er Ec O), N.eqb_refl. cbn [N.eqb]. reflexivity. }
  assert (Len : length (set_slot i None rs) = length (set_slot i None cs)) by (rewrite !set_length; apply So).
  assert (Shp : forall j, match slot (set_slot i None rs) j, slot (set_slot i None cs) j with Some r, Some c => shape r c | None, None => True | _, _ => False end).
  { intros j. destruct (Nat.eq_dec i j) as [<-|E]; [now rewrite !slot_set_same|]. rewrite !slot_set_other by exact E. apply So. }
  assert (Back : forall (A : Type) (l : list (option A)) j x, slot (set_slot i None l) j = Some x -> i <> j /\ slot l j = Some x).
  { intros A l j x H. destruct (Nat.eq_dec i j) as [<-|E]; [rewrite slot_set_same in H; discriminate H|]. rewrite slot_set_other in H by exact E. auto. }
  destruct D as [(p & d & O & E)|[No E]]; eexists; (split; [exact E|]); split; auto.
  - intros j r' c' q d' H1 H2 H3. apply Back in H1 as [Nj H1]. apply Back in H2 as [_ H2].
    destruct (N.eq_dec q p) as [->|Nq]; [exfalso; apply Nj; exact (so_apart _ _ _ So i j r r' c c' p d d' Er Ec O H1 H2 H3)|].
    rewrite store_other by exact Nq. exact (so_owned _ _ _ So j r' c' q d' H1 H2 H3).
  - intros q d' H. destruct (N.eq_dec q p) as [->|Nq]; [rewrite store_same in H; discriminate H|]. rewrite store_other in H by exact Nq.
    destruct (so_owner _ _ _ So q d' H) as (j & r' & c' & H1 & H2 & H3). exists j, r', c'.
    assert (i <> j). { intros <-. rewrite Er in H1. injection H1 as <-. rewrite Ec in H2. injection H2 as <-. apply Nq. clear -O H3.
      destruct c; [destruct O as (_ & _ & _ & [])| |]; destruct O as (_ & _ & _ & _ & <-), H3 as (_ & _ & _ & _ & <-); reflexivity. }
    rewrite !slot_set_other by assumption. auto.
  - intros j k r1 r2 c1 c2 q d1 d2 H1 H2 H3 H4 H5 H6. apply Back in H1 as [_ H1]. apply Back in H2 as [_ H2]. apply Back in H4 as [_ H4]. apply Back in H5 as [_ H5].
    exact (so_apart _ _ _ So j k r1 r2 c1 c2 q d1 d2 H1 H2 H3 H4 H5 H6).
  - intros j r' c' q d' H1 H2 H3. apply Back in H1 as [Nj H1]. apply Back in H2 as [_ H2]. exact (so_owned _ _ _ So j r' c' q d' H1 H2 H3).
  - intros q d' H. destruct (so_owner _ _ _ So q d' H) as (j & r' & c' & H1 & H2 & H3). exists j, r', c'.
    assert (i <> j). { intros <-. rewrite Er in H1. injection H1 as <-. rewrite Ec in H2. injection H2 as <-. exact (No q d' H3). }
    rewrite !slot_set_other by assumption. auto.
  - intros j k r1 r2 c1 c2 q d1 d2 H1 H2 H3 H4 H5 H6. apply Back in H1 as [_ H1]. apply Back in H2 as [_ H2]. apply Back in H4 as [_ H4]. apply Back in H5 as [_ H5].
    exact (so_apart _ _ _ So j k r1 r2 c1 c2 q d1 d2 H1 H2 H3 H4 H5 H6).
Qed.

Lemma make_sound h rs cs r c h' : sound h rs cs -> shape r c ->
  (h' = h /\ (forall p d, ~ owns r c p d) \/ exists p d, h p = None /\ h' = store_at h p (Some d) /\ (forall q e, owns r c q e <-> q = p /\ e = d)) ->
  sound h' (rs ++ [Some r]) (cs ++ [Some c]).
Proof.
  intros So Sh K. pose proof (so_length _ _ _ So) as Ln. split.
  - rewrite !app_length. cbn. lia.
  - intros i. rewrite !slot_snoc, <- Ln. destruct (Nat.eqb i (length rs)); [exact Sh|apply So].
  - intros i r' c' p d H1 H2 H3. rewrite slot_snoc in H1. rewrite slot_snoc, <- Ln in H2. destruct (Nat.eqb i (length rs)).
    + injection H1 as <-. injection H2 as <-. destruct K as [[_ No]|(q & e & Hn & -> & Ow)]; [exfalso; exact (No p d H3)|].
      apply Ow in H3 as [-> ->]. apply store_same.
    + pose proof (so_owned _ _ _ So i r' c' p d H1 H2 H3) as X. destruct K as [[-> _]|(q & e & Hn & -> & _)]; [exact X|].
      rewrite store_other; [exact X|]. intros ->. congruence.
  - intros p d H. destruct K as [[-> No]|(q & e & Hn & -> & Ow)].
    + destruct (so_owner _ _ _ So p d H) as (i & r' & c' & H1 & H2 & H3). exists i, r', c'. rewrite !slot_snoc, <- Ln.
      assert (i < length rs)%nat. { apply nth_error_Some. unfold slot in H1. destruct (nth_error rs i); congruence. }
      destruct (Nat.eqb_spec i (length rs)); [lia|auto].
    + destruct (N.eq_dec p q) as [->|Np].
      * rewrite store_same in H. injection H as <-. exists (length rs), r, c. rewrite !slot_snoc, <- Ln, Nat.eqb_refl. split; [reflexivity|]. split; [reflexivity|]. now apply Ow.
      * rewrite store_other in H by exact Np. destruct (so_owner _ _ _ So p d H) as (i & r' & c' & H1 & H2 & H3). exists i, r', c'. rewrite !slot_snoc, <- Ln.
        assert (i < length rs)%nat. { apply nth_error_Some. unfold slot in H1. destruct (nth_error rs i); congruence. }
        destruct (Nat.eqb_spec i (length rs)); [lia|auto].
  - assert (Old : forall j r' c' p d, slot rs j = Some r' -> slot cs j = Some c' -> owns r' c' p d -> owns r c p d \/ True -> forall d', ~ owns r c p d').
    { intros j r' c' p d H1 H2 H3 _ d' H4. pose proof (so_owned _ _ _ So j r' c' p d H1 H2 H3) as X.
      destruct K as [[_ No]|(q & e & Hn & _ & Ow)]; [exact (No _ _ H4)|]. apply Ow in H4 as [-> _]. congruence. }
    intros i j r1 r2 c1 c2 p d1 d2 H1 H2 H3 H4 H5 H6. rewrite slot_snoc in H1, H4. rewrite slot_snoc, <- Ln in H2, H5.
    destruct (Nat.eqb_spec i (length rs)) as [->|Ni], (Nat.eqb_spec j (length rs)) as [->|Nj]; [reflexivity|..].
    + injection H1 as <-. injection H2 as <-. exfalso. exact (Old j r2 c2 p d2 H4 H5 H6 (or_intror I) d1 H3).
    + injection H4 as <-. injection H5 as <-. exfalso. exact (Old i r1 c1 p d1 H1 H2 H3 (or_intror I) d2 H6).
    + exact (so_apart _ _ _ So i j r1 r2 c1 c2 p d1 d2 H1 H2 H3 H4 H5 H6).
Qed.

Lemma step_sound s h rs cs : sound h rs cs ->
  match s with Make c p => content_fits c /\ 1 < p /\ h p = None | Unwrap i => forall d, slot cs i <> Some (CReceipt d) | _ => True end ->
  exists x h' rs', result_step s (h, rs) = Some (x, (h', rs')) /\ x = fst (ideal_step s cs) /\ sound h' rs' (snd (ideal_step s cs)).
Proof.
  intros So U. destruct s as [c p|i|i|i]; cbn [result_step ideal_step fst snd].
  - destruct U as (F & P & Hn). destruct c as [|d|d].
    + exists SMade, h, (rs ++ [Some result_ok]). split; [reflexivity|]. split; [reflexivity|]. apply (make_sound h); [exact So|reflexivity|]. left. split; [reflexivity|]. intros q e (_ & _ & _ & []).
    + unfold new_error, leak. cbn [content_fits] in F. change (2 ^ 32) with 4294967296 in F. replace (nlen d <=? 4294967295) with true by lia.
      destruct d as [|b d].
      * eexists _, _, _. split; [reflexivity|]. split; [reflexivity|]. apply (make_sound h); [exact So|cbn; repeat split; try discriminate; congruence|]. left. split; [reflexivity|].
        intros q e (X & _ & _ & <- & _). congruence.
      * eexists _, _, _. split; [reflexivity|]. split; [reflexivity|]. apply (make_sound h); [exact So|cbn [shape rs_receipt rs_error rs_size]; repeat split; lia|]. right. exists p, (b :: d).
        split; [exact Hn|]. split; [reflexivity|]. intros q e. split; [intros (_ & _ & _ & <- & <-); auto|]. intros [-> ->]. repeat split; auto; discriminate.
    + unfold new_receipt, leak. cbn [content_fits] in F. change (2 ^ 32) with 4294967296 in F. replace (nlen d <=? 4294967295) with true by lia.
      destruct d as [|b d].
      * eexists _, _, _. split; [reflexivity|]. split; [reflexivity|]. apply (make_sound h); [exact So|cbn; repeat split; try discriminate; congruence|]. left. split; [reflexivity|].
        intros q e (X & _ & _ & <- & _). congruence.
      * eexists _, _, _. split; [reflexivity|]. split; [reflexivity|]. apply (make_sound h); [exact So|cbn [shape rs_receipt rs_error rs_size]; repeat split; lia|]. right. exists p, (b :: d).
        split; [exact Hn|]. split; [reflexivity|]. intros q e. split; [intros (_ & _ & _ & <- & <-); auto|]. intros [-> ->]. repeat split; auto; discriminate.
  - pose proof (so_shape _ _ _ So i) as Sh. destruct (slot rs i) as [r|] eqn:Er, (slot cs i) as [c|] eqn:Ec; try contradiction.
    2:{ eexists _, _, _. split; [reflexivity|]. split; [reflexivity|exact So]. }
    unfold receipt_of, is_ok. destruct c as [|d|d]; cbn [shape] in Sh.
    + subst r. eexists _, _, _. split; [reflexivity|]. split; [reflexivity|exact So].
    + destruct Sh as (A & B & _). rewrite A. eexists _, _, _. split; [reflexivity|]. split; [|exact So]. destruct (N.eqb_spec (rs_error r) 0); [congruence|reflexivity].
    + destruct Sh as (A & B & Sz & C). destruct (N.eqb_spec (rs_receipt r) 0); [congruence|]. unfold read_slice. rewrite Sz, A.
      destruct (N.eqb_spec (nlen d) 0) as [Z|Z].
      * apply nlen_nil_iff in Z. subst d. eexists _, _, _. split; [reflexivity|]. split; [reflexivity|exact So].
      * assert (Nd : d <> []) by (intros ->; apply Z; reflexivity).
        assert (O : owns r (CReceipt d) (rs_receipt r) d) by (split; [exact Nd|]; auto). rewrite (so_owned _ _ _ So i r (CReceipt d) _ _ Er Ec O), N.leb_refl.
        unfold nlen. rewrite Nat2N.id, firstn_all. eexists _, _, _. split; [reflexivity|]. split; [reflexivity|exact So].
  - pose proof (so_shape _ _ _ So i) as Sh. destruct (slot rs i) as [r|] eqn:Er, (slot cs i) as [c|] eqn:Ec; try contradiction.
    + destruct (drop_sound h rs cs i r c So Er Ec) as (h' & -> & So'). eexists _, _, _. split; [reflexivity|]. split; [reflexivity|exact So'].
    + eexists _, _, _. split; [reflexivity|]. split; [reflexivity|]. enough (set_slot i None cs = cs) as -> by exact So.
      clear -Ec. unfold slot in Ec. revert i Ec. induction cs as [|x cs IH]; intros [|i] E; cbn in *; auto; [destruct x; congruence|]. now rewrite IH.
  - pose proof (so_shape _ _ _ So i) as Sh. destruct (slot rs i) as [r|] eqn:Er, (slot cs i) as [c|] eqn:Ec; try contradiction.
    + destruct (drop_sound h rs cs i r c So Er Ec) as (h' & Ed & So'). unfold unwrap_result. rewrite Ed. destruct c as [|d|d]; cbn [shape] in Sh.
      * subst r. eexists _, _, _. split; [reflexivity|]. split; [reflexivity|exact So'].
      * destruct Sh as (A & B & Sz & C). destruct (N.eqb_spec (rs_error r) 0); [congruence|]. cbn [andb]. unfold read_slice. rewrite Sz.
        destruct (N.eqb_spec (nlen d) 0) as [Z|Z]; [eexists _, _, _; split; [reflexivity|]; split; [reflexivity|exact So']|].
        assert (Nd : d <> []) by (intros ->; apply Z; reflexivity).
        assert (O : owns r (CErr d) (rs_error r) d) by (split; [exact Nd|]; auto). rewrite (so_owned _ _ _ So i r (CErr d) _ _ Er Ec O), N.leb_refl.
        eexists _, _, _. split; [reflexivity|]. split; [reflexivity|exact So'].
      * exfalso. exact (U d eq_refl).
    + eexists _, _, _. split; [reflexivity|]. split; [reflexivity|]. enough (set_slot i None cs = cs) as -> by exact So.
      clear -Ec. unfold slot in Ec. revert i Ec. induction cs as [|x cs IH]; intros [|i] E; cbn in *; auto; [destruct x; congruence|]. now rewrite IH.
Qed.

Lemma run_sound ss : forall h rs cs, sound h rs cs -> proper_use ss (h, rs) cs ->
  exists xs h' rs', result_run ss (h, rs) = Some (xs, (h', rs')) /\ xs = fst (ideal_run ss cs) /\ sound h' rs' (snd (ideal_run ss cs)).
Proof.
  induction ss as [|s ss IH]; intros h rs cs So U; cbn [result_run ideal_run].
  - exists [], h, rs. auto.
  - cbn [proper_use fst] in U. destruct U as [U1 U2]. destruct (step_sound s h rs cs So U1) as (x & h1 & rs1 & E & -> & So1). rewrite E.
    destruct (IH h1 rs1 _ So1 (U2 _ _ E)) as (xs & h2 & rs2 & E2 & -> & So2). rewrite E2.
    destruct (ideal_step s cs) as [y l1]. cbn [fst snd] in *. destruct (ideal_run ss l1) as [ys l2]. cbn [fst snd] in *. eauto 8.
Qed.
