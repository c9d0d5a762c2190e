(** Proofs about templates in memory and genesis. *)
From Coq Require Import List NArith ZArith Lia Bool Permutation.
From Coq Require Import ZifyBool ZifyNat ZifyN.
From Verif Require Import Base CodecModel CodecSpec CodecProofs LayoutModel LayoutSpec SectionModel SectionSpec SectionProofs.
From Verif Require Import StorageModel StorageSpec StorageProofs GlobalModel GlobalSpec GlobalProofs.
From Verif Require Import RuntimeModel RuntimeSpec RuntimeProofs FfiModel FfiSpec TemplateModel TemplateSpec.
From Verif Require PrimProofs.
Import ListNotations.
Open Scope N_scope.

(* ------------------------------------------------------------------------------------ *)
(** * Sections *)

Lemma get_in k l s : get_section k l = Some s -> In s l /\ section_kind_of s = k.
Proof.
  unfold get_section. intros H. apply find_some in H. destruct H as [H1 H2]. apply kind_eqb_spec in H2. auto.
Qed.
Lemma get_some s l : NoDup (map section_kind_of l) -> In s l -> get_section (section_kind_of s) l = Some s.
Proof.
  unfold get_section. induction l as [|y l IH]; cbn [map find In]; [tauto|]. intros ND Hin. inversion ND; subst.
  destruct (kind_eqb (section_kind_of s) (section_kind_of y)) eqn:E.
  - apply kind_eqb_spec in E. destruct Hin as [->|Hin]; auto.
    elim H1. rewrite <- E. now apply in_map.
  - destruct Hin as [->|Hin]; auto. now rewrite SectionProofs.kind_eqb_refl in E.
Qed.
Lemma get_none k l : get_section k l = None <-> ~ In k (map section_kind_of l).
Proof.
  split.
  - intros H Hin. apply in_map_iff in Hin. destruct Hin as (s & E & Hs). unfold get_section in H.
    pose proof (find_none _ _ H s Hs) as N. cbn in N. rewrite <- E, SectionProofs.kind_eqb_refl in N. discriminate.
  - intros H. destruct (get_section k l) as [s|] eqn:E; auto. apply get_in in E. destruct E as [E <-].
    elim H. now apply in_map.
Qed.
Lemma get_perm k l l' : Permutation l l' -> NoDup (map section_kind_of l) -> get_section k l' = get_section k l.
Proof.
  intros P ND. pose proof (Permutation_NoDup (Permutation_map section_kind_of P) ND) as ND'.
  destruct (get_section k l) as [s|] eqn:E.
  - apply get_in in E. destruct E as [E <-]. apply get_some; auto. eapply Permutation_in; eauto.
  - apply get_none. apply get_none in E. intros H. apply E. eapply Permutation_in; [symmetry; exact (Permutation_map section_kind_of P)|exact H].
Qed.

Lemma take_none k l : take_section k l = None <-> ~ In k (map section_kind_of l).
Proof.
  assert (F : find_index k l = None <-> ~ In k (map section_kind_of l)).
  { induction l as [|x l IH]; cbn [find_index map In]; [tauto|]. destruct (kind_eqb k (section_kind_of x)) eqn:E.
    - apply kind_eqb_spec in E. subst k. split; [discriminate|tauto].
    - assert (section_kind_of x <> k) by (intros <-; now rewrite SectionProofs.kind_eqb_refl in E).
      destruct (find_index k l); cbn [obind]; intuition congruence. }
  rewrite <- F. unfold take_section. destruct (find_index k l) as [i|] eqn:E; cbn [obind]; [|tauto].
  split; [|discriminate]. destruct (find_index_nth _ _ _ E) as (x & Hx & _). rewrite Hx. cbn [obind].
  destruct (nth_error l (length l - 1)) as [z|] eqn:Ez; cbn [obind]; [discriminate|].
  apply nth_error_None in Ez. assert (i < length l)%nat by (apply nth_error_Some; congruence). lia.
Qed.

Lemma shows_intro l h : NoDup (map section_kind_of l) -> (forall k, get_section k l = h k) -> shows_held l h.
Proof.
  intros ND G. split; auto. split; auto. intros k. rewrite <- G. unfold sections_kinds.
  pose proof (get_none k l) as N. destruct (get_section k l) as [s|] eqn:E.
  - split; [discriminate|]. intros _. apply get_in in E. destruct E as [E <-]. now apply in_map.
  - split; [|congruence]. intros H _. now apply N in H.
Qed.

Lemma shows_put s l h : shows_held l h -> shows_held (insert_section s l) (put s h).
Proof.
  intros (ND & G & _). apply shows_intro; [now apply PrimProofs.insert_nodup|].
  intros k. rewrite PrimProofs.get_insert, G. reflexivity.
Qed.
Lemma shows_take k l h : shows_held l h ->
  fst (try_take k l) = h k /\ shows_held (snd (try_take k l)) (drop k h).
Proof.
  intros (ND & G & K). unfold try_take. destruct (take_section k l) as [[x l']|] eqn:E; cbn [fst snd].
  - apply take_section_perm in E. destruct E as [P Hk]. subst k.
    pose proof (Permutation_NoDup (Permutation_map section_kind_of P) ND) as ND'. cbn [map] in ND'. inversion ND'; subst.
    split.
    { rewrite <- G. symmetry. apply get_some; auto. eapply Permutation_in; [symmetry; exact P|left; reflexivity]. }
    apply shows_intro; auto. intros k. unfold drop. destruct (kind_eqb k (section_kind_of x)) eqn:E.
    + apply kind_eqb_spec in E. subst k. now apply get_none.
    + rewrite <- G, <- (get_perm k _ _ P ND). cbn [get_section find]. unfold get_section. cbn [find]. now rewrite E.
  - apply take_none in E. assert (N : h k = None) by (rewrite <- G; now apply get_none). split; auto.
    apply shows_intro; auto. intros k'. unfold drop. destruct (kind_eqb k' k) eqn:E'; auto.
    apply kind_eqb_spec in E'. subst. now rewrite G.
Qed.

Lemma edit_shown o l h : shows_held l h ->
  match run_edit o l, edited o h with
  | Some (a, l'), Some (b, h') => a = b /\ shows_held l' h'
  | None, None => True
  | _, _ => False
  end.
Proof.
  intros H. destruct o as [s|k|[x|]|[x|]|d]; cbn [run_edit edited with_header with_deploy]; auto using shows_put.
  - destruct (try_take k l) as [a l'] eqn:E. pose proof (shows_take k l h H) as [A B]. rewrite E in *. auto.
  - unfold set_deploy_section. destruct (has_section KDeploy l) eqn:E; cbn [obind].
    + apply has_section_in in E. apply H in E. destruct (h KDeploy); [exact I|congruence].
    + destruct (h KDeploy) as [s|] eqn:Eh.
      * assert (X : In KDeploy (sections_kinds l)) by (apply H; congruence). apply has_section_in in X. congruence.
      * split; auto using shows_put.
Qed.

Lemma edits_shown os : forall l h, shows_held l h ->
  match run_edits os l, edited_all os h with
  | Some (a, l'), Some (b, h') => a = b /\ shows_held l' h'
  | None, None => True
  | _, _ => False
  end.
Proof.
  induction os as [|o os IH]; intros l h H; cbn [run_edits edited_all]; auto.
  pose proof (edit_shown o l h H) as S. destruct (run_edit o l) as [[a l1]|]; cbn [obind];
    destruct (edited o h) as [[b h1]|]; auto; try contradiction. destruct S as [-> S].
  specialize (IH l1 h1 S). destruct (run_edits os l1) as [[rs l2]|]; cbn [obind];
    destruct (edited_all os h1) as [[rs' h2]|]; auto. destruct IH as [-> IH]. auto.
Qed.

Lemma shows_nothing : shows_held no_sections nothing.
Proof. apply shows_intro; [constructor|reflexivity]. Qed.

(* ------------------------------------------------------------------------------------ *)
(** * Genesis *)

Lemma remove_noncore_some l : NoDup (map section_kind_of l) -> mandatory l ->
  exists c t d r, remove_noncore l = Some ([c; t; d], r)
    /\ section_kind_of c = KCode /\ section_kind_of t = KCtors /\ section_kind_of d = KData
    /\ Permutation l (c :: t :: d :: r).
Proof.
  intros ND M. unfold remove_noncore.
  destruct (take_section KCode l) as [[c l1]|] eqn:E1; cbn [obind].
  2:{ apply take_none in E1. elim E1. apply M. cbn. auto. }
  apply take_section_perm in E1. destruct E1 as [P1 K1].
  assert (In1 : forall k, k <> KCode -> In k (map section_kind_of l) -> In k (map section_kind_of l1)).
  { intros k Hk Hin. apply (Permutation_in _ (Permutation_map section_kind_of P1)) in Hin. cbn [map In] in Hin.
    rewrite K1 in Hin. destruct Hin; congruence. }
  destruct (take_section KCtors l1) as [[t l2]|] eqn:E2; cbn [obind].
  2:{ apply take_none in E2. elim E2. apply In1; [discriminate|]. apply M. cbn. auto. }
  apply take_section_perm in E2. destruct E2 as [P2 K2].
  destruct (take_section KData l2) as [[d l3]|] eqn:E3; cbn [obind].
  2:{ apply take_none in E3. elim E3.
      assert (Hin : In KData (map section_kind_of l1)) by (apply In1; [discriminate|]; apply M; cbn; auto).
      apply (Permutation_in _ (Permutation_map section_kind_of P2)) in Hin. cbn [map In] in Hin.
      rewrite K2 in Hin. destruct Hin; congruence. }
  apply take_section_perm in E3. destruct E3 as [P3 K3].
  exists c, t, d, l3. repeat split; auto. now rewrite P1, P2, P3.
Qed.

Lemma merge_disjoint n : forall c, NoDup (map section_kind_of (c ++ n)) -> merge_sections c n = c ++ n.
Proof.
  unfold merge_sections. induction n as [|s n IH]; intros c H; cbn [fold_left]; [symmetry; apply app_nil_r|].
  rewrite insert_section_new.
  - rewrite IH; rewrite <- app_assoc; auto.
  - rewrite map_app in H. cbn [map] in H. apply NoDup_remove_2 in H. intros X. apply H. apply in_or_app. auto.
Qed.

(** What is stored under the two keys of a template. *)
Definition stored (e : env) (g : gstate) (a : bytes) (core noncore : sections) : Prop :=
  sections_wf core /\ sections_wf noncore /\
  exists b1 b2, enc_sections core = Some b1 /\ enc_sections noncore = Some b2
    /\ cur e g (key_core a) = Some b1 /\ cur e g (key_noncore a) = Some b2.

Lemma stored_sections e g a x y : gs_layer_param g = None -> stored e g a x y ->
  template_sections e a g = (Ok (merge_sections x y), g).
Proof.
  intros HP (Hx & Hy & b1 & b2 & E1 & E2 & C1 & C2). unfold template_sections, gbind.
  rewrite (read_now_sections e (key_core a) g HP x b1) by auto.
  rewrite (read_now_sections e (key_noncore a) g HP y b2) by auto. reflexivity.
Qed.

Lemma create_stored e a x y g : collision_free e -> typed e g -> array_wf 20 a -> sections_wf x -> sections_wf y ->
  exists g', template_create e a x y g = (Ok tt, g') /\ typed e g'
    /\ only e (fun t => t = TCore a \/ t = TNon a) g g' /\ stored e g' a x y.
Proof.
  intros HC HT Ha Hx Hy.
  pose proof (typed_template e a x y HC Ha Hx Hy g HT) as HT'.
  unfold template_create, gbind in *.
  destruct (sections_rt x Hx) as (bs1 & E1 & _). destruct (sections_rt y Hy) as (bs2 & E2 & _).
  destruct (write_effect e (TCore a) enc_sections _ bs1 g HC (conj Ha I) E1) as (g1 & W1 & O1 & C1).
  cbn [key_of] in W1, C1. rewrite W1 in *.
  destruct (write_effect e (TNon a) enc_sections _ bs2 g1 HC (conj Ha I) E2) as (g2 & W2 & O2 & C2).
  cbn [key_of] in W2, C2. rewrite W2 in *. cbn [snd] in HT'.
  exists g2. split; [reflexivity|]. split; auto. split.
  { eapply only_trans; [eapply only_weaken; [|exact O1]|eapply only_weaken; [|exact O2]]; cbn; auto. }
  split; auto. split; auto. exists bs1, bs2. repeat split; auto.
  rewrite <- C1. apply (on_cur _ _ _ _ O2 (TCore a)); [split; auto|discriminate].
Qed.

Lemma stored_only e g g' P a x y : only e P g g' -> array_wf 20 a -> ~ P (TCore a) -> ~ P (TNon a) ->
  stored e g a x y -> stored e g' a x y.
Proof.
  intros O Ha H1 H2 (Hx & Hy & b1 & b2 & E1 & E2 & C1 & C2). split; auto. split; auto. exists b1, b2.
  repeat split; auto.
  - rewrite <- C1. apply (on_cur _ _ _ _ O (TCore a)); auto. now split.
  - rewrite <- C2. apply (on_cur _ _ _ _ O (TNon a)); auto. now split.
Qed.

Lemma set_noncore_stored e a x y z g : collision_free e -> array_wf 20 a -> sections_wf z -> stored e g a x y ->
  exists g', template_set_noncore e a z g = (Ok tt, g') /\ gs_layer_param g' = gs_layer_param g /\ stored e g' a x z.
Proof.
  intros HC Ha Hz (Hx & Hy & b1 & b2 & E1 & E2 & C1 & C2). destruct (sections_rt z Hz) as (b3 & E3 & _).
  destruct (write_effect e (TNon a) enc_sections _ b3 g HC (conj Ha I) E3) as (g1 & W & O & C).
  exists g1. split; [exact W|]. split; [apply (on_param _ _ _ _ O)|]. split; auto. split; auto.
  exists b1, b3. repeat split; auto. rewrite <- C1. apply (on_cur _ _ _ _ O (TCore a)); [now split|discriminate].
Qed.
Lemma set_core_stored e a x y z g : collision_free e -> array_wf 20 a -> sections_wf z -> stored e g a x y ->
  exists g', template_set_core e a z g = (Ok tt, g') /\ gs_layer_param g' = gs_layer_param g /\ stored e g' a z y.
Proof.
  intros HC Ha Hz (Hx & Hy & b1 & b2 & E1 & E2 & C1 & C2). destruct (sections_rt z Hz) as (b3 & E3 & _).
  destruct (write_effect e (TCore a) enc_sections _ b3 g HC (conj Ha I) E3) as (g1 & W & O & C).
  exists g1. split; [exact W|]. split; [apply (on_param _ _ _ _ O)|]. split; auto. split; auto.
  exists b3, b2. repeat split; auto. rewrite <- C2. apply (on_cur _ _ _ _ O (TNon a)); [now split|discriminate].
Qed.

Lemma NoDup_app_two {A} (l m : list A) : NoDup l -> NoDup m -> (forall x, In x l -> In x m -> False) -> NoDup (l ++ m).
Proof.
  induction 1 as [|x l Hx _ IH]; intros Hm D; cbn [app]; auto. constructor.
  - rewrite in_app_iff. intros [H|H]; [auto|]. apply (D x); cbn; auto.
  - apply IH; auto. intros y Hy. apply D. now right.
Qed.
Lemma filter_perm {A} (f : A -> bool) l m : Permutation l m -> Permutation (filter f l) (filter f m).
Proof.
  induction 1; cbn [filter]; auto.
  - destruct (f x); auto.
  - destruct (f x), (f y); auto. constructor.
  - etransitivity; eauto.
Qed.
Lemma filter_all {A} (f : A -> bool) l : (forall x, In x l -> f x = true) -> filter f l = l.
Proof. induction l as [|x l IH]; intros H; cbn [filter]; auto. rewrite H by (cbn; auto). f_equal. apply IH. intros; apply H; cbn; auto. Qed.
Lemma filter_no {A} (f : A -> bool) l : (forall x, In x l -> f x = false) -> filter f l = [].
Proof. induction l as [|x l IH]; intros H; cbn [filter]; auto. rewrite H by (cbn; auto). apply IH. intros; apply H; cbn; auto. Qed.

Lemma create_templates_ok e ts : collision_free e -> genesis_wf ts -> forall g, typed e g ->
  exists g', create_templates e ts g = (Ok tt, g') /\ typed e g'
    /\ only e (fun t => exists a, In a (map fst ts) /\ (t = TCore a \/ t = TNon a)) g g'
    /\ (forall a l, In (a, l) ts -> exists x y, remove_noncore l = Some (x, y) /\ stored e g' a x y).
Proof.
  intros HC [ND F]. induction ts as [|[a l] ts IH]; intros g HT; cbn [create_templates].
  - exists g. split; [reflexivity|]. split; [auto|]. split; [apply only_refl|]. intros ? ? [].
  - cbn [map fst] in ND. apply NoDup_cons_iff in ND. destruct ND as [Na ND].
    inversion F as [|? ? (Ha & Hl & Hm) F']; subst. cbn [fst snd] in *.
    destruct (remove_noncore_some l (proj1 Hl) Hm) as (c & t & d & r & E & _ & _ & _ & P).
    unfold gbind at 1. rewrite E. cbn [gsome gret]. unfold gbind at 1.
    apply (sections_wf_perm _ ([c; t; d] ++ r) P) in Hl. apply sections_wf_app in Hl. destruct Hl as [H1 H2].
    destruct (create_stored e a [c; t; d] r g HC HT Ha H1 H2) as (g1 & -> & T1 & O1 & S1).
    destruct (IH ND F' g1 T1) as (g2 & E2 & T2 & O2 & S2).
    exists g2. split; auto. split; auto. split.
    + eapply only_trans; [eapply only_weaken; [|exact O1]|eapply only_weaken; [|exact O2]].
      * intros u Hu. exists a. cbn [map fst In]. auto.
      * intros u (b & Hb & Hu). exists b. cbn [map fst In]. auto.
    + intros b lb [[= <- <-]|Hin]; [|eauto]. exists [c; t; d], r. split; auto.
      eapply stored_only; eauto; intros (b & Hb & [Hu|Hu]); inversion Hu; subst; auto.
Qed.

Lemma typed_fresh e : typed e (mkGstate fresh None).
Proof. repeat split; constructor. Qed.

Lemma genesis_starts e ts : iterates e -> collision_free e -> genesis_wf ts ->
  exists g fp, gs_new e empty_db ts = Some g
    /\ gs_layer_param g = None /\ last_layer (gs_storage g) = Ok (-1, fp)%Z
    /\ (forall a l, In (a, l) ts -> exists x y, remove_noncore l = Some (x, y) /\ stored e g a x y)
    /\ (forall a, array_wf 20 a -> ~ In a (map fst ts) -> cur e g (key_core a) = None).
Proof.
  intros HI HC HW. destruct (create_templates_ok e ts HC HW (mkGstate fresh None) (typed_fresh e)) as (g1 & E1 & T1 & O1 & S1).
  assert (HR1 : reachable e (gs_storage g1)).
  { destruct (emits_templates e ts (mkGstate fresh None)) as (ops & Ho & He). rewrite E1 in He. cbn [snd gs_storage] in He.
    exists ops. split; [now apply no_rewind_above|auto]. }
  set (s2 := checkpoint e (gs_storage g1)).
  assert (HR2 : reachable e s2).
  { apply (reachable_exec_all e (gs_storage g1) [Checkpoint]) in HR1; [exact HR1|repeat constructor]. }
  assert (HU : has_uncommitted_changes s2 = false) by (unfold s2; rewrite checkpoint_eq; reflexivity).
  destruct (commit_spec e s2 HI HR2 HU) as (l & prev & fp & s3 & L2 & C & L3 & G3 & _).
  assert (Hl : l = (-1)%Z).
  { assert (X : st_next_id s2 = (-1)%Z).
    { unfold s2. rewrite checkpoint_eq. cbn [st_next_id]. rewrite (on_next _ _ _ _ O1). reflexivity. }
    unfold last_layer in L2. rewrite X in L2. cbn -[layer_fingerprint] in L2.
    destruct (layer_fingerprint _ _ _); try discriminate. injection L2 as L2 _. lia. }
  subst l.
  assert (CUR : forall k, cur e (mkGstate s3 None) k = cur e g1 k).
  { intros k. unfold cur, get. cbn [gs_storage]. rewrite G3. unfold s2. now rewrite get_checkpoint by auto. }
  exists (mkGstate s3 None), fp. split; [|split; [reflexivity|split; [exact L3|split]]].
  - unfold gs_new. change (open_db empty_db) with (Ok (A := storage) (E := storage_error) fresh). cbv beta iota.
    unfold init_genesis. replace (genesis_fingerprint (gs_storage (mkGstate fresh None))) with (@None bytes) by reflexivity.
    unfold gbind. rewrite E1. unfold gs_checkpoint, gs_commit_raw. cbn [gs_storage gs_layer_param]. fold s2. rewrite C. cbn [lift].
    cbn [Z.eqb Pos.eqb gret]. rewrite (on_param _ _ _ _ O1). reflexivity.
  - intros a l Hin. destruct (S1 a l Hin) as (x & y & E & Hx & Hy & b1 & b2 & B1 & B2 & C1 & C2).
    exists x, y. split; auto. split; auto. split; auto. exists b1, b2. rewrite !CUR. auto.
  - intros a Ha Hn. rewrite CUR. change (key_core a) with (key_of (TCore a)). rewrite (on_cur _ _ _ _ O1 (TCore a)); [reflexivity|now split|].
    intros (b & Hb & [Hu|Hu]); inversion Hu; subst; auto.
Qed.

(** ** Genesis is applied once and kept *)
Lemma R_genesis s v : R s v -> (2 <= length (committed v))%nat -> genesis_fingerprint s <> None.
Proof.
  intros H L. unfold genesis_fingerprint.
  assert (Hin : In (-1)%Z (map lr_id (db_layers (st_db s)))).
  { rewrite (R_ids _ _ H). apply in_ids_of. lia. }
  apply in_map_iff in Hin. destruct Hin as (x & Hx & Hin).
  destruct (find _ _) as [y|] eqn:E; [discriminate|]. pose proof (find_none _ _ E x Hin) as X. cbn beta in X.
  rewrite Hx in X. pose proof (R_complete _ _ H) as C. rewrite Forall_forall in C. rewrite (C x Hin) in X. discriminate.
Qed.

(** The history of the storage below a reachable global state: a start up to the genesis
    layer, then operations that never go back further. *)
Definition settled (e : env) (s : storage) : Prop :=
  exists s0 ops, reachable e s0 /\ st_next_id s0 = 0%Z /\ rewinds_above (-1) ops /\ snd (exec_all e ops s0) = s.

Lemma settled_more e s ops : settled e s -> rewinds_above (-1) ops -> settled e (snd (exec_all e ops s)).
Proof.
  intros (s0 & o & R0 & N0 & A & <-) B. exists s0, (o ++ ops). split; auto. split; auto. split.
  - apply Forall_app. auto.
  - apply exec_all_app.
Qed.

Lemma new_settled e ts g : iterates e -> gs_new e empty_db ts = Some g -> settled e (gs_storage g)
  /\ forall k, get_by_hash (gs_storage g) k (Some (-1)%Z) = get_by_hash (gs_storage g) k None.
Proof.
  intros HI. unfold gs_new. change (open_db empty_db) with (Ok (A := storage) (E := storage_error) fresh). cbv beta iota.
  unfold init_genesis. replace (genesis_fingerprint (gs_storage (mkGstate fresh None))) with (@None bytes) by reflexivity.
  unfold gbind. destruct (create_templates e ts (mkGstate fresh None)) as [[[]|?|] g1] eqn:E1; try discriminate.
  assert (HR1 : reachable e (gs_storage g1)).
  { destruct (emits_templates e ts (mkGstate fresh None)) as (ops & Ho & He). rewrite E1 in He. cbn [snd gs_storage] in He.
    exists ops. split; [now apply no_rewind_above|auto]. }
  unfold gs_checkpoint, gs_commit_raw. cbn [gs_storage gs_layer_param].
  set (s2 := checkpoint e (gs_storage g1)).
  assert (HR2 : reachable e s2).
  { apply (reachable_exec_all e (gs_storage g1) [Checkpoint]) in HR1; [exact HR1|repeat constructor]. }
  assert (HU : has_uncommitted_changes s2 = false) by (unfold s2; rewrite checkpoint_eq; reflexivity).
  destruct (commit_spec e s2 HI HR2 HU) as (l & prev & fp & s3 & L2 & C & L3 & G3 & G4 & _). rewrite C. cbn [lift].
  destruct (Z.eqb_spec l (-1)); [subst l|discriminate]. intros [= <-]. cbn [gs_storage].
  split; [|intros k; now rewrite G4, G3].
  exists s3, []. split; [|split; [|split; [constructor|reflexivity]]].
  - apply (reachable_exec_all e s2 [Commit]) in HR2; [|repeat constructor]. cbn [exec_all StorageSpec.exec] in HR2. now rewrite C in HR2.
  - unfold last_layer in L3. destruct (_ <? _)%Z; [|discriminate]. destruct (layer_fingerprint _ _ _); try discriminate.
    injection L3 as L3 _. lia.
Qed.

Lemma reachable_settled e g : iterates e -> gs_reachable e g -> settled e (gs_storage g).
Proof.
  intros HI. induction 1 as [ts g _ H|o g _ IH _]; [eapply (proj1 (new_settled e ts g HI H))|].
  destruct (emits_gop e o g) as (ops & Ho & ->). apply settled_more; auto. apply Ho. destruct o; auto. lia.
Qed.

Lemma settled_genesis e s : iterates e -> settled e s -> genesis_fingerprint s <> None.
Proof.
  intros HI (s0 & ops & R0 & N0 & A & <-). destruct (reachable_R e s0 HI R0) as [v H].
  assert (Hl : (-1 < next_layer v)%Z) by (rewrite <- (R_next _ _ H), N0; lia).
  destruct (exec_all_sound e ops s0 v HI H (rewinds_weaken (-1) (-2) ops ltac:(lia) A)) as [_ H'].
  destruct (perform_all_upto (-1) ops v Hl A) as [_ L].
  eapply R_genesis; [exact H'|]. unfold next_layer in L. lia.
Qed.

Lemma settled_get e s ops k : iterates e -> settled e s -> rewinds_above (-1) ops ->
  get_by_hash (snd (exec_all e ops s)) k (Some (-1)%Z) = get_by_hash s k (Some (-1)%Z).
Proof.
  intros HI (s0 & o & R0 & N0 & A & <-) B.
  rewrite <- exec_all_app. assert (A2 : rewinds_above (-1) (o ++ ops)) by (apply Forall_app; auto).
  rewrite !(committed_immutable e s0 (-1)); auto; try lia; eapply rewinds_weaken; try eassumption; lia.
Qed.

(** ** The coin transfer template *)
Lemma sct_encodes wasm : enc_sections (sct_sections wasm) = enc_sections (sct_canonical wasm).
Proof. reflexivity. Qed.
Lemma sct_split wasm : remove_noncore (sct_sections wasm)
  = Some ([SCode (mkCode 0 wasm 0 Fixed); SCtors []; SData [default_layout]], []).
Proof. reflexivity. Qed.
Lemma sct_split_canonical wasm : remove_noncore (sct_canonical wasm)
  = Some ([SCode (mkCode 0 wasm 0 Fixed); SCtors []; SData [mkLayout (Some 0) []]], []).
Proof. reflexivity. Qed.

Lemma mainnet_canonical e wasm d :
  gs_new e d (mainnet e wasm) = gs_new e d [(template_addr e wasm, sct_canonical wasm)].
Proof.
  unfold gs_new. destruct (open_db d) as [s|?|]; reflexivity.
Qed.

Lemma sct_canonical_wf wasm : bytes_ok wasm -> nlen wasm < 4294967295 - 26 -> sections_wf (sct_canonical wasm).
Proof.
  intros Hb Hn. split; [repeat constructor; cbn; intuition discriminate|].
  assert (L : layout_wf (mkLayout (Some 0) [])).
  { exists 0, []. split; [reflexivity|]. split; [reflexivity|]. split; [constructor|]. split; [auto|].
    split; [intros H; now elim H|]. split; [reflexivity|]. intros [|i] v; discriminate. }
  constructor; [|constructor; [|constructor; [|constructor]]].
  - split; [|cbn [section_size cs_code]; lia]. cbn [section_wf cs_svm_version cs_code cs_flags cs_gas_mode].
    repeat split; auto.
  - split; [|reflexivity]. cbn [section_wf]. split; [discriminate|]. constructor; auto.
  - split; [|reflexivity]. cbn [section_wf]. split; [discriminate|constructor].
Qed.
