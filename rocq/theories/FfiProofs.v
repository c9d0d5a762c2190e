(** Proofs about the C interface (C50, C83-C87). *)
From Coq Require Import List NArith ZArith Bool Lia ZifyBool ZifyNat ZifyN.
From Verif Require Import Base Text CodecModel CodecSpec CodecProofs ReceiptModel ReceiptSpec ReceiptProofs.
From Verif Require Import LayoutModel SectionModel SectionSpec StorageModel StorageSpec StorageProofs.
From Verif Require Import GlobalModel GlobalSpec GlobalProofs RuntimeModel RuntimeSpec RuntimeProofs FfiModel FfiSpec.
Import ListNotations.
Open Scope N_scope.

(* ------------------------------------------------------------------------------------ *)
(** * Tracker *)

Lemma contains_In p l : contains p l = true <-> In p l.
Proof.
  unfold contains. rewrite existsb_exists. split.
  - intros (x & Hx & E). apply N.eqb_eq in E. now subst.
  - intros H. exists p. split; [exact H|apply N.eqb_refl].
Qed.
Lemma contains_not p l : contains p l = false <-> ~ In p l.
Proof. rewrite <- contains_In. destruct (contains p l); split; congruence. Qed.
Lemma contains_cons p q l : contains p (q :: l) = (p =? q) || contains p l.
Proof. reflexivity. Qed.
Lemma contains_remove p q l : contains p (filter (fun x => negb (q =? x)) l) = negb (p =? q) && contains p l.
Proof.
  apply eq_true_iff_eq. rewrite andb_true_iff, !contains_In, filter_In, !negb_true_iff.
  rewrite !N.eqb_neq. split; intros [A B]; split; auto.
Qed.
Lemma remove_absent q l : ~ In q l -> filter (fun x => negb (q =? x)) l = l.
Proof.
  induction l as [|x l IH]; intros H; [reflexivity|]. cbn [filter].
  destruct (N.eqb_spec q x) as [->|D]; [exfalso; apply H; now left|]. cbn [negb]. f_equal. apply IH. intros K. apply H. now right.
Qed.
Lemma remove_length q l : NoDup l -> In q l -> nlen (filter (fun x => negb (q =? x)) l) + 1 = nlen l.
Proof.
  induction l as [|x l IH]; intros ND HI; [destruct HI|]. inversion ND as [|? ? Hx Hl]; subst. cbn [filter].
  rewrite (nlen_cons x l). destruct HI as [->|HI].
  - rewrite N.eqb_refl. cbn [negb]. rewrite remove_absent by auto. lia.
  - destruct (N.eqb_spec q x) as [->|D]; [contradiction|]. cbn [negb]. rewrite nlen_cons, <- (IH Hl HI). lia.
Qed.

Lemma box_write p q r l :
  box_at p (box_set q r l)
  = if p =? q then match box_at p l with Some _ => Some r | None => None end else box_at p l.
Proof.
  induction l as [|[k x] l IH]; cbn [box_set box_at]; [now destruct (p =? q)|].
  destruct (N.eqb_spec q k) as [->|D].
  - cbn [box_at]. destruct (N.eqb_spec p k); reflexivity.
  - cbn [box_at]. destruct (N.eqb_spec p k) as [->|D2].
    + replace (k =? q) with false by (symmetry; apply N.eqb_neq; congruence). reflexivity.
    + exact IH.
Qed.
Lemma box_set_same p r l : box_at p l = Some r -> box_set p r l = l.
Proof.
  induction l as [|[k x] l IH]; cbn [box_set box_at]; [reflexivity|].
  destruct (N.eqb_spec p k) as [->|D]; [congruence|]. intros H. now rewrite (IH H).
Qed.

(** What one call does to the runtimes. *)
Definition sound (lb : library) : Prop :=
  NoDup (tk_pointers (lb_runtimes lb))
  /\ forall p, In p (tk_pointers (lb_runtimes lb)) -> box_at p (tk_boxes (lb_runtimes lb)) <> None.

Lemma behind_open lb p : sound lb -> (behind lb p <> None <-> contains p (tk_pointers (lb_runtimes lb)) = true).
Proof.
  intros [_ H]. unfold behind, tracker_get. destruct (contains p _) eqn:E; [|split; congruence].
  split; [reflexivity|]. intros _. apply H. now apply contains_In.
Qed.

Lemma step_sound w o lb a lb' : capi_step w o lb = (a, lb') -> sound lb -> sound lb'.
Proof.
  intros E HS. destruct HS as [ND HB]. destruct o as [|l p|p| |p q]; cbn [capi_step] in E.
  - unfold svm_init in E. destruct (lb_poisoned lb); inversion E; subst; now split.
  - unfold svm_runtime_create in E. destruct (lb_poisoned lb); [inversion E; subst; now split|].
    destruct (lb_init lb); [|inversion E; subst; now split].
    destruct (open_global w l) as [g|]; inversion E; subst; [|now split]. split; cbn [lb_runtimes tracker_alloc tk_pointers tk_boxes].
    + destruct (contains p _) eqn:C; [exact ND|]. constructor; [|exact ND]. now apply contains_not.
    + intros x Hx. cbn [box_at]. destruct (N.eqb_spec x p); [discriminate|]. apply HB.
      destruct (contains p _); [exact Hx|]. destruct Hx as [->|Hx]; [congruence|exact Hx].
  - unfold svm_runtime_destroy, tracker_free in E. destruct (contains p _) eqn:C; inversion E; subst; [|now split].
    split; cbn [lb_runtimes tk_pointers tk_boxes].
    + now apply NoDup_filter.
    + intros x Hx. apply filter_In in Hx. apply HB. apply Hx.
  - inversion E; subst. now split.
  - unfold on_runtime in E. destruct (tracker_get _ p) as [r|] eqn:G; [|inversion E; subst; now split].
    destruct (serve w q r) as [a1 r1]. inversion E; subst. split; [exact ND|].
    intros x Hx. cbn [lb_runtimes tracker_write tk_boxes]. rewrite box_write.
    specialize (HB x Hx). destruct (x =? p); [|exact HB]. destruct (box_at x _); [discriminate|exact HB].
Qed.

(** The effect of a call on the set of handles, from its reply. *)
Lemma step_pointers w o lb a lb' p : capi_step w o lb = (a, lb') ->
  contains p (tk_pointers (lb_runtimes lb'))
  = match o, a with
    | CCreate _ _, RHandle q => if p =? q then true else contains p (tk_pointers (lb_runtimes lb))
    | CDestroy q, ROk => if p =? q then false else contains p (tk_pointers (lb_runtimes lb))
    | _, _ => contains p (tk_pointers (lb_runtimes lb))
    end.
Proof.
  intros E. destruct o as [|l q|q| |q x]; cbn [capi_step] in E.
  - unfold svm_init in E. destruct (lb_poisoned lb); inversion E; reflexivity.
  - unfold svm_runtime_create in E. destruct (lb_poisoned lb); [inversion E; reflexivity|].
    destruct (lb_init lb); [|inversion E; reflexivity].
    destruct (open_global w l) as [g|]; inversion E; [|reflexivity]. cbn [lb_runtimes tracker_alloc tk_pointers].
    destruct (N.eqb_spec p q) as [->|D].
    + destruct (contains q (tk_pointers (lb_runtimes lb))) eqn:C; [exact C|]. rewrite contains_cons, N.eqb_refl. reflexivity.
    + destruct (contains q (tk_pointers (lb_runtimes lb))) eqn:C; [reflexivity|]. rewrite contains_cons.
      now replace (p =? q) with false by (symmetry; now apply N.eqb_neq).
  - unfold svm_runtime_destroy, tracker_free in E. destruct (contains q _) eqn:C; inversion E; [|reflexivity].
    cbn [lb_runtimes tk_pointers]. rewrite contains_remove. destruct (p =? q); reflexivity.
  - inversion E; reflexivity.
  - unfold on_runtime in E. destruct (tracker_get _ q) as [r|]; [|inversion E; subst; reflexivity].
    destruct (serve w x r) as [a1 r1]. inversion E; reflexivity.
Qed.

Lemma step_handle w l p lb a lb' : capi_step w (CCreate l p) lb = (a, lb') -> a = RHandle p \/ a = RError.
Proof.
  cbn [capi_step]. unfold svm_runtime_create. destruct (lb_poisoned lb); [intros E; inversion E; auto|].
  destruct (lb_init lb); [|intros E; inversion E; auto]. destruct (open_global w l); intros E; inversion E; auto.
Qed.

(* ------------------------------------------------------------------------------------ *)
(** * Histories *)

Lemma run_app w ops1 ops2 lb :
  capi_run w (ops1 ++ ops2) lb
  = let (l1, lb1) := capi_run w ops1 lb in let (l2, lb2) := capi_run w ops2 lb1 in (l1 ++ l2, lb2).
Proof.
  revert lb. induction ops1 as [|o ops1 IH]; intros lb; cbn [app capi_run].
  - now destruct (capi_run w ops2 lb).
  - destruct (capi_step w o lb) as [a lb1]. rewrite IH.
    destruct (capi_run w ops1 lb1) as [l1 lb2]. now destruct (capi_run w ops2 lb2).
Qed.

Lemma run_length w ops : forall lb, length (fst (capi_run w ops lb)) = length ops.
Proof.
  induction ops as [|o ops IH]; intros lb; cbn [capi_run]; [reflexivity|].
  destruct (capi_step w o lb) as [a lb1]. specialize (IH lb1). destruct (capi_run w ops lb1) as [l lb2].
  cbn [fst length] in *. now rewrite IH.
Qed.

Lemma answered_cons w lb x tr lb' : answered w lb (x :: tr) lb' <->
  exists lb1, capi_step w (fst x) lb = (snd x, lb1) /\ answered w lb1 tr lb'.
Proof.
  unfold answered. cbn [map capi_run]. destruct (capi_step w (fst x) lb) as [a lb1].
  destruct (capi_run w (map fst tr) lb1) as [l lb2] eqn:E. split.
  - intros H. inversion H; subst. exists lb1. split; [reflexivity|exact E].
  - intros (lb3 & H1 & H2). inversion H1; subst. rewrite E in H2. inversion H2; subst. reflexivity.
Qed.
Lemma answered_nil w lb lb' : answered w lb [] lb' <-> lb = lb'.
Proof. unfold answered. cbn. split; [intros E; now inversion E|intros ->; reflexivity]. Qed.
Lemma answered_app w tr1 tr2 : forall lb lb', answered w lb (tr1 ++ tr2) lb' <->
  exists lb1, answered w lb tr1 lb1 /\ answered w lb1 tr2 lb'.
Proof.
  induction tr1 as [|x tr1 IH]; intros lb lb'; cbn [app].
  - split.
    + intros H. exists lb. split; [now apply answered_nil|exact H].
    + intros (lb1 & H1 & H2). apply answered_nil in H1. now subst.
  - rewrite answered_cons. split.
    + intros (lb1 & H1 & H2). apply IH in H2 as (lb2 & H2 & H3). exists lb2. split; [|exact H3].
      apply answered_cons. eauto.
    + intros (lb2 & H1 & H3). apply answered_cons in H1 as (lb1 & H1 & H2). exists lb1. split; [exact H1|].
      apply IH. eauto.
Qed.

Lemma answered_sound w tr : forall lb lb', answered w lb tr lb' -> sound lb -> sound lb'.
Proof.
  induction tr as [|x tr IH]; intros lb lb' H HS.
  - apply answered_nil in H. now subst.
  - apply answered_cons in H as (lb1 & H1 & H2). eapply IH; [exact H2|]. eapply step_sound; eauto.
Qed.
Lemma start_sound : sound library_start.
Proof. split; [constructor|intros p []]. Qed.

Lemma answered_open w p tr : forall lb lb', answered w lb tr lb' ->
  contains p (tk_pointers (lb_runtimes lb')) = is_open p tr (contains p (tk_pointers (lb_runtimes lb))).
Proof.
  induction tr as [|x tr IH]; intros lb lb' H.
  - apply answered_nil in H. now subst.
  - apply answered_cons in H as (lb1 & H1 & H2). rewrite (IH _ _ H2). cbn [is_open].
    rewrite (step_pointers w (fst x) lb (snd x) lb1 p H1). f_equal. destruct x as [[|l q|q| |q y] a]; cbn [fst snd]; try reflexivity;
      destruct a; reflexivity.
Qed.

Lemma open_behind w p tr lb : answered w library_start tr lb -> (behind lb p <> None <-> is_open p tr false = true).
Proof.
  intros H. rewrite behind_open by (eapply answered_sound; [exact H|apply start_sound]).
  now rewrite (answered_open w p tr _ _ H).
Qed.

Lemma is_creation_step w x lb lb' : capi_step w (fst x) lb = (snd x, lb') ->
  is_creation x = true -> exists l p, x = (CCreate l p, RHandle p).
Proof.
  destruct x as [o a]. cbn [fst snd is_creation]. intros E H. destruct o; try discriminate. destruct a; try discriminate.
  apply step_handle in E as [E|E]; inversion E; subst. eauto.
Qed.

Lemma count_step w x lb lb' : sound lb -> capi_step w (fst x) lb = (snd x, lb') ->
  (forall l p, x = (CCreate l p, RHandle p) -> contains p (tk_pointers (lb_runtimes lb)) = false) ->
  nlen (tk_pointers (lb_runtimes lb')) + (if is_destruction x then 1 else 0)
  = nlen (tk_pointers (lb_runtimes lb)) + (if is_creation x then 1 else 0).
Proof.
  intros [ND _] E F. destruct x as [o a]. cbn [fst snd] in E. destruct o as [|l q|q| |q y]; cbn [capi_step] in E.
  - unfold svm_init in E. destruct (lb_poisoned lb); inversion E; reflexivity.
  - unfold svm_runtime_create in E. destruct (lb_poisoned lb); [inversion E; reflexivity|].
    destruct (lb_init lb); [|inversion E; reflexivity].
    destruct (open_global w l) as [g|]; inversion E; subst; [|reflexivity]. cbn [lb_runtimes tracker_alloc tk_pointers is_creation is_destruction].
    rewrite (F l q eq_refl). rewrite nlen_cons. lia.
  - unfold svm_runtime_destroy, tracker_free in E. destruct (contains q _) eqn:C; inversion E; subst; [|reflexivity].
    cbn [lb_runtimes tk_pointers is_creation is_destruction]. apply contains_In in C.
    rewrite remove_length by auto. lia.
  - inversion E; reflexivity.
  - unfold on_runtime in E. destruct (tracker_get _ q) as [r|].
    + destruct (serve w y r) as [a1 r1]. inversion E; subst. cbn [is_creation is_destruction]. destruct a; reflexivity.
    + inversion E; subst. reflexivity.
Qed.

Lemma count_trace w tr : forall lb, answered w library_start tr lb -> allocator_ok tr ->
  nlen (tk_pointers (lb_runtimes lb)) + destructions tr = creations tr.
Proof.
  induction tr as [|x tr IH] using rev_ind; intros lb H HA.
  - apply answered_nil in H. subst. reflexivity.
  - apply answered_app in H as (lb1 & H1 & H2). apply answered_cons in H2 as (lb2 & H2 & H3).
    apply answered_nil in H3. subst.
    assert (HA1 : allocator_ok tr).
    { intros tr1 l p tr2 E. apply (HA tr1 l p (tr2 ++ [x])). rewrite E, <- app_assoc. reflexivity. }
    specialize (IH lb1 H1 HA1). assert (HS : sound lb1) by (eapply answered_sound; [exact H1|apply start_sound]).
    assert (F : forall l p, x = (CCreate l p, RHandle p) -> contains p (tk_pointers (lb_runtimes lb1)) = false).
    { intros l p ->. rewrite (answered_open w p tr _ _ H1). change (contains p _) with false. apply (HA tr l p []). reflexivity. }
    pose proof (count_step w x lb1 lb HS H2 F) as C.
    unfold creations, destructions in *. rewrite !filter_app, !nlen_app. cbn [filter].
    destruct (is_creation x), (is_destruction x); change (nlen [x]) with 1; change (nlen (@nil (capi * creply))) with 0; lia.
Qed.

(* ------------------------------------------------------------------------------------ *)
(** * One runtime among others *)

Lemma step_other w o lb a lb' p : capi_step w o lb = (a, lb') ->
  (forall l, o <> CCreate l p) -> o <> CDestroy p -> (forall q, o <> COn p q) ->
  behind lb' p = behind lb p.
Proof.
  intros E H1 H2 H3. unfold behind, tracker_get. rewrite (step_pointers w o lb a lb' p E).
  destruct o as [|l q|q| |q y]; cbn [capi_step] in E.
  - unfold svm_init in E. destruct (lb_poisoned lb); inversion E; reflexivity.
  - assert (D : p =? q = false) by (apply N.eqb_neq; intros ->; now apply (H1 l)).
    unfold svm_runtime_create in E. destruct (lb_poisoned lb); [inversion E; reflexivity|].
    destruct (lb_init lb); [|inversion E; reflexivity].
    destruct (open_global w l) as [g|]; inversion E; subst; [|reflexivity]. rewrite D.
    cbn [lb_runtimes tracker_alloc tk_boxes box_at]. now rewrite D.
  - assert (D : p =? q = false) by (apply N.eqb_neq; intros ->; now apply H2).
    unfold svm_runtime_destroy, tracker_free in E. destruct (contains q _); inversion E; subst; [|reflexivity].
    rewrite D. reflexivity.
  - inversion E; reflexivity.
  - assert (D : p =? q = false) by (apply N.eqb_neq; intros ->; now apply (H3 y)).
    unfold on_runtime in E. destruct (tracker_get _ q) as [r|]; [|inversion E; subst; reflexivity].
    destruct (serve w y r) as [a1 r1]. inversion E; subst. cbn [lb_runtimes tracker_write tk_boxes].
    rewrite box_write, D. reflexivity.
Qed.

Lemma step_on w p q lb r : behind lb p = Some r ->
  exists lb', capi_step w (COn p q) lb = (fst (serve w q r), lb') /\ behind lb' p = Some (snd (serve w q r)).
Proof.
  intros B. cbn [capi_step]. unfold on_runtime. unfold behind in B. rewrite B. destruct (serve w q r) as [a r1].
  eexists. split; [reflexivity|]. unfold behind, tracker_get in *. cbn [lb_runtimes tracker_write tk_pointers tk_boxes fst snd].
  destruct (contains p _); [|discriminate]. rewrite box_write, N.eqb_refl, B. reflexivity.
Qed.

Lemma step_same w p q lb r a : behind lb p = Some r -> serve w q r = (a, r) -> capi_step w (COn p q) lb = (a, lb).
Proof.
  intros B E. cbn [capi_step]. unfold on_runtime. unfold behind in B. rewrite B, E.
  assert (X : box_at p (tk_boxes (lb_runtimes lb)) = Some r).
  { unfold tracker_get in B. destruct (contains p (tk_pointers (lb_runtimes lb))); [exact B|discriminate B]. }
  unfold tracker_write. rewrite (box_set_same _ _ _ X). destruct lb as [i z [ps bs]]. reflexivity.
Qed.

Lemma isolated w p tr : forall lb lb' r, answered w lb tr lb' -> behind lb p = Some r -> ~ reopened p tr ->
  told p tr = fst (serve_all w (asked p tr) r) /\ behind lb' p = Some (snd (serve_all w (asked p tr) r)).
Proof.
  induction tr as [|[o a] tr IH]; intros lb lb' r H B HN.
  - apply answered_nil in H. subst. split; [reflexivity|exact B].
  - apply answered_cons in H as (lb1 & H1 & H2). cbn [fst snd] in H1.
    assert (HN' : ~ reopened p tr).
    { intros (x & Hx & K). apply HN. exists x. split; [now right|exact K]. }
    assert (H3 : (forall l, o <> CCreate l p) /\ o <> CDestroy p).
    { split; [intros l ->|intros ->]; apply HN; eexists; (split; [now left|]); cbn; eauto. }
    destruct H3 as [H3 H4].
    assert (Other : (forall q, o <> COn p q) -> behind lb1 p = Some r).
    { intros H5. rewrite <- B. eapply step_other; eauto. }
    destruct o as [|l q|q| |q y]; cbn [told asked]; try (apply (IH lb1 lb' r H2); [apply Other; discriminate|exact HN']).
    destruct (N.eqb_spec p q) as [<-|D].
    + destruct (step_on w p y lb r B) as (lb2 & E & B2). rewrite E in H1. inversion H1; subst.
      specialize (IH lb1 lb' _ H2 B2 HN'). cbn [serve_all]. destruct (serve w y r) as [a r1]. cbn [fst snd] in *.
      destruct (serve_all w (asked p tr) r1) as [l r2]. cbn [fst snd] in *. destruct IH as [-> ->]. split; reflexivity.
    + apply (IH lb1 lb' r H2); [|exact HN']. apply Other. intros z K. inversion K. congruence.
Qed.

(* ------------------------------------------------------------------------------------ *)
(** * Counters in two halves *)

Lemma land_halves u l : l < 2 ^ 64 -> N.land (N.shiftl u 64) l = 0.
Proof.
  intros H. apply N.bits_inj. intros n. rewrite N.land_spec, N.bits_0.
  destruct (N.ltb_spec n 64) as [L|L].
  - now rewrite N.shiftl_spec_low.
  - replace (N.testbit l n) with false; [apply andb_false_r|]. symmetry.
    rewrite <- (N.mod_small l (2 ^ 64)) by exact H. now rewrite N.mod_pow2_bits_high.
Qed.
Lemma lor_halves u l : l < 2 ^ 64 -> N.lor (N.shiftl u 64) l = u * 2 ^ 64 + l.
Proof.
  intros H. rewrite <- N.lxor_lor by (now apply land_halves). rewrite <- N.add_nocarry_lxor by (now apply land_halves).
  now rewrite N.shiftl_mul_pow2.
Qed.
Lemma upper_half u l : l < 2 ^ 64 -> u < 2 ^ 64 -> N.shiftr (u * 2 ^ 64 + l) 64 mod 2 ^ 64 = u.
Proof.
  intros H1 H2. rewrite N.shiftr_div_pow2, N.div_add_l by discriminate. rewrite (N.div_small l) by exact H1.
  rewrite N.add_0_r. now apply N.mod_small.
Qed.
Lemma lower_half u l : l < 2 ^ 64 -> (u * 2 ^ 64 + l) mod 2 ^ 64 = l.
Proof. intros H. rewrite N.add_comm, N.mod_add by discriminate. now apply N.mod_small. Qed.
Lemma halves_bound u l : uint_wf 64 u -> uint_wf 64 l -> uint_wf 128 (u * 2 ^ 64 + l).
Proof. unfold uint_wf. intros H1 H2. change (2 ^ 128) with (2 ^ 64 * 2 ^ 64). nia. Qed.

(* ------------------------------------------------------------------------------------ *)
(** * Envelopes and contexts of the right size always decode *)

Lemma read_bytes_split k bs : (k <= length bs)%nat -> read_bytes k bs = Ok (firstn k bs, skipn k bs).
Proof.
  intros H. rewrite <- (firstn_skipn k bs) at 1. apply read_bytes_app_n. now apply firstn_length_le.
Qed.
Lemma dec_uint_split k bs : (k <= length bs)%nat -> dec_uint k bs = Ok (be_value (firstn k bs), skipn k bs).
Proof. intros H. unfold dec_uint. now rewrite read_bytes_split. Qed.

Lemma envelope_decodes v : length v = 60%nat -> exists ev, decoded dec_envelope v = Some ev.
Proof.
  intros H. unfold decoded, dec_envelope, dec_array, dec_gas, dec_u64, dec_u128, ADDRESS_LEN.
  rewrite read_bytes_split by lia. cbv beta iota delta [bind].
  rewrite dec_uint_split by (rewrite !skipn_length; lia). cbv beta iota delta [bind].
  rewrite dec_uint_split by (rewrite !skipn_length; lia). cbv beta iota delta [bind].
  rewrite dec_uint_split by (rewrite !skipn_length; lia). cbv beta iota delta [bind].
  destruct (_ =? 0); cbv beta iota delta [bind]; rewrite dec_uint_split by (rewrite !skipn_length; lia); eexists; reflexivity.
Qed.
Lemma context_decodes v : length v = 72%nat -> exists c, decoded dec_context v = Some c.
Proof.
  intros H. unfold decoded, dec_context, dec_array, dec_u64, TXID_LEN, STATE_LEN.
  rewrite read_bytes_split by lia. cbv beta iota delta [bind].
  rewrite dec_uint_split by (rewrite !skipn_length; lia). cbv beta iota delta [bind].
  rewrite read_bytes_split by (rewrite !skipn_length; lia). eexists; reflexivity.
Qed.

(* ------------------------------------------------------------------------------------ *)
(** * Runtimes behind handles are runtimes *)

Definition served (w : world) (r : runtime) : Prop :=
  rt_reachable (w_env w) (w_engine w) (rn_gs r) (rn_cache r).

Lemma layer_reads g : snd (gs_current_layer g) = g.
Proof.
  unfold gs_current_layer, gbind. destruct (lift (last_layer (gs_storage g))) as [[z f]| |]; try reflexivity.
  destruct (layer_of z); reflexivity.
Qed.

Lemma locked_served w r k : served w r -> (rn_poisoned r = false -> served w (snd (k (rn_gs r)))) ->
  served w (snd (locked r k)).
Proof. intros H K. unfold locked. destruct (rn_poisoned r); [exact H|now apply K]. Qed.

Lemma action_served w v c r k : served w r ->
  (forall ev, decoded dec_envelope v = Some ev -> served w (snd (k ev))) -> served w (snd (svm_runtime_action v c r k)).
Proof.
  intros H K. unfold svm_runtime_action. destruct (decoded dec_envelope v) as [ev|] eqn:E; [|exact H].
  destruct (decoded dec_context c); [|exact H]. now apply K.
Qed.

Lemma serve_served w q r : array_wf 20 (w_sct w) -> request_wf q -> served w r -> served w (snd (serve w q r)).
Proof.
  intros Hs Hq HR.
  assert (Op : forall o g' c', rop_wf o -> run_rop (w_env w) (w_engine w) o (rn_gs r, rn_cache r) = (g', c') ->
                forall b, served w (mkRuntime g' c' b)).
  { intros o g' c' Ho E b. unfold served. cbn [rn_gs rn_cache]. eapply rr_op; eauto. }
  destruct q; cbn [serve request_wf] in *.
  - unfold svm_validate_deploy. destruct (ProgramModel.validate_deploy (w_parse w) m); exact HR.
  - exact HR.
  - exact HR.
  - apply action_served; [exact HR|]. intros ev _. destruct (rn_poisoned r); [exact HR|].
    destruct (deploy (w_env w) ev m (rn_gs r)) as [o g'] eqn:E. cbn [snd]. apply (Op (TDeploy ev m)); [apply Hq|].
    cbn [run_rop]. now rewrite E.
  - apply action_served; [exact HR|]. intros ev _. apply locked_served; [exact HR|]. intros _.
    destruct (spawn (w_env w) (w_engine w) ev m (rn_cache r) (rn_gs r)) as [[o c'] g'] eqn:E. cbn [snd].
    apply (Op (TSpawn ev m)); [apply Hq|]. cbn [run_rop]. now rewrite E.
  - apply action_served; [exact HR|]. intros ev _. apply locked_served; [exact HR|]. intros _.
    destruct (verify (w_env w) (w_engine w) m (rn_gs r)) as [o g'] eqn:E. cbn [snd].
    apply (Op (TVerify m)); [apply Hq|]. cbn [run_rop]. now rewrite E.
  - apply action_served; [exact HR|]. intros ev _. apply locked_served; [exact HR|]. intros _.
    destruct (rt_call (w_env w) (w_engine w) m (rn_gs r)) as [o g'] eqn:E. cbn [snd].
    apply (Op (TCall m)); [apply Hq|]. cbn [run_rop]. now rewrite E.
  - apply locked_served; [exact HR|]. intros _. exact HR.
  - apply locked_served; [exact HR|]. intros _. pose proof (layer_reads (rn_gs r)) as L.
    destruct (gs_current_layer (rn_gs r)) as [o g']. cbn [snd] in *. subst. destruct r; exact HR.
  - apply locked_served; [exact HR|]. intros _. destruct (rt_rewind l (rn_gs r)) as [o g'] eqn:E. cbn [snd].
    apply (Op (TRewind l)); [exact Logic.I|]. cbn [run_rop]. now rewrite E.
  - apply locked_served; [exact HR|]. intros _. destruct (rt_commit (w_env w) (rn_gs r)) as [o g'] eqn:E. cbn [snd].
    apply (Op TCommit); [exact Logic.I|]. cbn [run_rop]. now rewrite E.
  - apply locked_served; [exact HR|]. intros _. destruct (reads_get_account (w_env w) addr (rn_gs r)) as [o E].
    rewrite E. cbn [snd]. destruct r; exact HR.
  - apply locked_served; [exact HR|]. intros _. destruct Hq as (Ha & Hb & Hu & Hl).
    rewrite lor_halves by exact Hl.
    destruct (account_create (w_env w) addr [] (w_sct w) balance (upper * 2 ^ 64 + lower) (rn_gs r)) as [o g'] eqn:E. cbn [snd].
    apply (Op (TCreate addr [] (w_sct w) balance (upper * 2 ^ 64 + lower))).
    + repeat split; try (now apply Ha); try (now apply Hs); try exact Hb; try (now apply halves_bound).
      * discriminate.
      * constructor.
    + cbn [run_rop]. now rewrite E.
  - apply locked_served; [exact HR|]. intros _.
    destruct (increase_balance (w_env w) addr n (rn_gs r)) as [o g'] eqn:E. cbn [snd].
    apply (Op (TIncrease addr n)); [exact Hq|]. cbn [run_rop]. now rewrite E.
  - apply locked_served; [exact HR|]. intros _.
    destruct (transfer (w_env w) src dst n (rn_gs r)) as [o g'] eqn:E. cbn [snd].
    apply (Op (TTransfer src dst n)); [exact Hq|]. cbn [run_rop]. now rewrite E.
Qed.

Lemma open_served w l g : world_wf w -> location_wf l -> open_global w l = Some g -> served w (mkRuntime g [] false).
Proof.
  intros (_ & _ & _ & _ & HG & _) HL E. unfold served. cbn [rn_gs rn_cache].
  destruct l as [|path [d|]]; cbn [open_global location_wf] in *.
  - eapply rr_new; eauto.
  - destruct (utf8_valid path); [|discriminate]. destruct HL as [->|HL]; [eapply rr_new; eauto|].
    exfalso. unfold gs_new in E. rewrite (reopen_fails d HL) in E. discriminate.
  - destruct (utf8_valid path); discriminate.
Qed.

Lemma step_served w o lb a lb' : world_wf w -> capi_wf o -> capi_step w o lb = (a, lb') ->
  (forall p r, behind lb p = Some r -> served w r) -> forall p r, behind lb' p = Some r -> served w r.
Proof.
  intros HW Ho E IH p r B.
  assert (Hs : array_wf 20 (w_sct w)) by apply HW.
  destruct o as [|l q|q| |q y].
  - apply (IH p). rewrite <- B. symmetry. eapply step_other; eauto; discriminate.
  - destruct (N.eqb_spec p q) as [->|D].
    + cbn [capi_step] in E. unfold svm_runtime_create in E. destruct (lb_poisoned lb); [inversion E; subst; eauto|].
      destruct (lb_init lb); [|inversion E; subst; eauto].
      destruct (open_global w l) as [g|] eqn:G; inversion E; subst; [|eauto].
      unfold behind, tracker_get in B. cbn [lb_runtimes tracker_alloc tk_pointers tk_boxes box_at] in B.
      rewrite N.eqb_refl in B. destruct (contains _ _); [|discriminate]. apply Some_inj in B. subst.
      eapply open_served; eauto.
    + apply (IH p). rewrite <- B. symmetry. eapply step_other; eauto; try discriminate. intros l' K. inversion K; congruence.
  - destruct (N.eqb_spec p q) as [->|D].
    + cbn [capi_step] in E. unfold svm_runtime_destroy in E. unfold tracker_free in E.
      destruct (contains q (tk_pointers (lb_runtimes lb))) eqn:C; inversion E; subst; [|eauto].
      unfold behind, tracker_get in B. cbn [lb_runtimes tk_pointers] in B.
      rewrite contains_remove, N.eqb_refl in B. discriminate.
    + apply (IH p). rewrite <- B. symmetry. eapply step_other; eauto; try discriminate. intros K. inversion K; congruence.
  - apply (IH p). rewrite <- B. symmetry. eapply step_other; eauto; discriminate.
  - destruct (N.eqb_spec p q) as [->|D].
    + destruct (behind lb q) as [r0|] eqn:B0.
      * destruct (step_on w q y lb r0 B0) as (lb2 & E2 & B2). rewrite E in E2. inversion E2; subst.
        rewrite B in B2. apply Some_inj in B2. subst. apply serve_served; [exact Hs|exact Ho|]. eapply IH; eauto.
      * cbn [capi_step] in E. unfold on_runtime in E. unfold behind in B0. rewrite B0 in E. inversion E; subst. eauto.
    + apply (IH p). rewrite <- B. symmetry. eapply step_other; eauto; try discriminate. intros z K. inversion K; congruence.
Qed.

Lemma trace_served w tr lb : world_wf w -> Forall (fun x => capi_wf (fst x)) tr -> answered w library_start tr lb ->
  forall p r, behind lb p = Some r -> served w r.
Proof.
  intros HW HF H. assert (H0 : forall p r, behind library_start p = Some r -> served w r) by (intros p r K; discriminate K).
  revert H H0. generalize library_start as lb0. induction HF as [|x tr Hx _ IH]; intros lb0 H H0.
  - apply answered_nil in H. now subst.
  - apply answered_cons in H as (lb1 & H1 & H2). apply (IH lb1 H2). eapply step_served; eauto.
Qed.

(* ------------------------------------------------------------------------------------ *)
(** * Locks *)

Lemma poisoned_stays w q r : rn_poisoned r = true -> snd (serve w q r) = r.
Proof.
  intros H. destruct q; cbn [serve]; unfold svm_validate_deploy, svm_deploy, svm_spawn, svm_verify, svm_call, svm_runtime_action,
    svm_uncommitted_changes, svm_layer_info, svm_rewind, svm_commit, svm_get_account, svm_create_genesis_account,
    svm_increase_balance, svm_transfer, locked; try rewrite H;
    try (destruct (ProgramModel.validate_deploy (w_parse w) m)); try reflexivity;
    destruct (decoded dec_envelope envelope); try reflexivity; destruct (decoded dec_context context); reflexivity.
Qed.
Lemma poisoned_refuses w q r : rn_poisoned r = true -> needs_state q -> fst (serve w q r) = RError.
Proof.
  intros H. destruct q; cbn [serve needs_state]; try contradiction; intros _; unfold svm_spawn, svm_verify, svm_call, svm_runtime_action,
    svm_uncommitted_changes, svm_layer_info, svm_rewind, svm_commit, svm_get_account, svm_create_genesis_account,
    svm_increase_balance, svm_transfer, locked; try rewrite H; try reflexivity;
    destruct (decoded dec_envelope envelope); try reflexivity; destruct (decoded dec_context context); reflexivity.
Qed.
Lemma poisoned_deploy w v m c r : rn_poisoned r = true ->
  fst (serve w (QDeploy v m c) r) = RError \/ fst (serve w (QDeploy v m c) r) = answer enc_deploy_receipt (Some (deploy_from_err OOG [])).
Proof.
  intros H. cbn [serve]. unfold svm_deploy, svm_runtime_action. destruct (decoded dec_envelope v) as [ev|]; [|now left].
  destruct (decoded dec_context c); [|now left]. rewrite H. cbn [fst]. unfold deploy_unlocked.
  destruct (decoded (dec_sections None) m); [|now left]. destruct (gas_lt _ _); [now right|now left].
Qed.
Lemma poisoned_all w qs : forall r, rn_poisoned r = true -> snd (serve_all w qs r) = r.
Proof.
  induction qs as [|q qs IH]; intros r H; cbn [serve_all]; [reflexivity|].
  pose proof (poisoned_stays w q r H) as E. destruct (serve w q r) as [a r1]. cbn [snd] in E. subst.
  specialize (IH r H). destruct (serve_all w qs r). exact IH.
Qed.

(** What poisons a runtime. *)
Lemma poisoning w q r : rn_poisoned r = false -> rn_poisoned (snd (serve w q r)) = true ->
  (exists l, q = QRewind l /\ fst (rt_rewind l (rn_gs r)) = Panic)
  \/ (exists v m c ev, q = QDeploy v m c /\ decoded dec_envelope v = Some ev /\ fst (deploy (w_env w) ev m (rn_gs r)) = None).
Proof.
  intros H.
  destruct q; cbn [serve]; unfold svm_validate_deploy, svm_deploy, svm_spawn, svm_verify, svm_call, svm_runtime_action,
    svm_uncommitted_changes, svm_layer_info, svm_rewind, svm_commit, svm_get_account, svm_create_genesis_account,
    svm_increase_balance, svm_transfer, locked; try rewrite H.
  - destruct (ProgramModel.validate_deploy (w_parse w) m); cbn [snd]; congruence.
  - cbn [snd svm_validate_spawn]. congruence.
  - cbn [snd svm_validate_call]. congruence.
  - destruct (decoded dec_envelope envelope) as [ev|] eqn:Ev; [|cbn [snd]; congruence].
    destruct (decoded dec_context context); [|cbn [snd]; congruence].
    destruct (deploy (w_env w) ev m (rn_gs r)) as [o g'] eqn:E. cbn [snd rn_poisoned]. intros P. right.
    exists envelope, m, context, ev. split; [reflexivity|]. split; [exact Ev|]. rewrite E. cbn [fst].
    revert E P. unfold deploy, deploy_poisons. destruct (decoded (dec_sections None) m) as [l|]; [|discriminate].
    destruct (gas_lt _ _); [discriminate|]. destruct (code_of l) as [cs|]; [|discriminate].
    destruct (template_create _ _ _ _ _) as [[|e|] g2]; intros E P; inversion E; try discriminate; reflexivity.
  - destruct (decoded dec_envelope envelope) as [ev|]; [|cbn [snd]; congruence].
    destruct (decoded dec_context context); [|cbn [snd]; congruence].
    destruct (spawn _ _ _ _ _ _) as [[o c1] g1]. cbn [snd rn_poisoned]. congruence.
  - destruct (decoded dec_envelope envelope) as [ev|]; [|cbn [snd]; congruence].
    destruct (decoded dec_context context); [|cbn [snd]; congruence].
    destruct (verify _ _ _ _) as [o g']. cbn [snd with_gs rn_poisoned]. congruence.
  - destruct (decoded dec_envelope envelope) as [ev|]; [|cbn [snd]; congruence].
    destruct (decoded dec_context context); [|cbn [snd]; congruence].
    destruct (rt_call _ _ _ _) as [o g']. cbn [snd with_gs rn_poisoned]. congruence.
  - cbn [snd]. congruence.
  - destruct (gs_current_layer _) as [o g']. cbn [snd with_gs rn_poisoned]. congruence.
  - destruct (rt_rewind l (rn_gs r)) as [o g'] eqn:E. cbn [snd rn_poisoned]. intros P. left. exists l. split; [reflexivity|].
    rewrite E. cbn [fst]. destruct o; congruence.
  - destruct (rt_commit _ _) as [o g']. cbn [snd with_gs rn_poisoned]. congruence.
  - destruct (get_account _ _ _) as [o g']. cbn [snd with_gs rn_poisoned]. congruence.
  - destruct (account_create _ _ _ _ _ _ _) as [o g']. cbn [snd with_gs rn_poisoned]. congruence.
  - destruct (increase_balance _ _ _ _) as [o g']. cbn [snd with_gs rn_poisoned]. congruence.
  - destruct (transfer _ _ _ _ _) as [o g']. cbn [snd with_gs rn_poisoned]. congruence.
Qed.

Lemma looks_stay w q r : only_looks q -> snd (serve w q r) = r.
Proof.
  destruct q; cbn [only_looks serve]; try contradiction; intros _.
  - unfold svm_validate_deploy. now destruct (ProgramModel.validate_deploy (w_parse w) m).
  - reflexivity.
  - reflexivity.
  - unfold svm_uncommitted_changes, locked. now destruct (rn_poisoned r).
  - unfold svm_layer_info, locked. destruct (rn_poisoned r) eqn:E; [reflexivity|]. pose proof (layer_reads (rn_gs r)) as L.
    destruct (gs_current_layer (rn_gs r)) as [o g']. cbn [snd] in *. subst. now destruct r.
  - unfold svm_get_account, locked. destruct (rn_poisoned r) eqn:E; [reflexivity|].
    destruct (reads_get_account (w_env w) addr (rn_gs r)) as [o E2]. rewrite E2. cbn [snd]. now destruct r.
Qed.

Lemma lockout_step w o lb : lb_poisoned lb = true -> lb_poisoned (snd (capi_step w o lb)) = true.
Proof.
  intros H. destruct o as [|l q|q| |q y]; cbn [capi_step]; unfold svm_init, svm_runtime_create, svm_runtime_destroy, svm_runtimes_count, on_runtime;
    try rewrite H; try exact H.
  - destruct (tracker_free _ _); [reflexivity|exact H].
  - destruct (tracker_get _ _) as [r|]; [|exact H]. destruct (serve w y r). reflexivity.
Qed.
Lemma lockout_run w ops : forall lb, lb_poisoned lb = true -> lb_poisoned (snd (capi_run w ops lb)) = true.
Proof.
  induction ops as [|o ops IH]; intros lb H; cbn [capi_run]; [exact H|].
  pose proof (lockout_step w o lb H) as H1. destruct (capi_step w o lb) as [a lb1]. cbn [snd] in H1.
  specialize (IH lb1 H1). destruct (capi_run w ops lb1). exact IH.
Qed.

(** Initialised, and nothing failed: the lock is fine. *)
Lemma creation_state w tr : forall lb, answered w library_start tr lb ->
  (forall l p, ~ In (CCreate l p, RError) tr) ->
  lb_poisoned lb = false /\ (In (CInit, ROk) tr -> lb_init lb = true).
Proof.
  induction tr as [|x tr IH] using rev_ind; intros lb H HN.
  - apply answered_nil in H. subst. split; [reflexivity|intros []].
  - apply answered_app in H as (lb1 & H1 & H2). apply answered_cons in H2 as (lb2 & H2 & H3).
    apply answered_nil in H3. subst.
    destruct (IH lb1 H1) as [P I1]. { intros l p K. apply (HN l p), in_or_app. now left. }
    assert (HX : forall l p, x <> (CCreate l p, RError)) by (intros l p ->; apply (HN l p), in_or_app; right; now left).
    destruct x as [o a]. cbn [fst snd] in H2.
    assert (Old : forall b, (In (CInit, ROk) (tr ++ [(o, a)]) -> (o, a) <> (CInit, ROk) -> lb_init lb1 = b -> b = true)).
    { intros b K D E. apply in_app_or in K as [K|[K|[]]]; [rewrite <- E; now apply I1|congruence]. }
    destruct o as [|l q|q| |q y]; cbn [capi_step] in H2; unfold svm_init, svm_runtime_create, svm_runtime_destroy, svm_runtimes_count, on_runtime in H2.
    + rewrite P in H2. inversion H2; subst. split; reflexivity.
    + rewrite P in H2. destruct (lb_init lb1) eqn:EI.
      * destruct (open_global w l); inversion H2; subst; [split; reflexivity|]. exfalso. now apply (HX l q).
      * inversion H2; subst. exfalso. now apply (HX l q).
    + destruct (tracker_free _ _); inversion H2; subst; (split; [exact P|]); intros K; eapply Old; eauto; discriminate.
    + inversion H2; subst. split; [exact P|]. intros K; eapply Old; eauto; discriminate.
    + destruct (tracker_get _ _) as [r|].
      * destruct (serve w y r). inversion H2; subst. split; [exact P|]. intros K; eapply Old; eauto; discriminate.
      * inversion H2; subst. split; [exact P|]. intros K; eapply Old; eauto; discriminate.
Qed.

(* ------------------------------------------------------------------------------------ *)
(** * Receipts fit the result type *)

Lemma be_bytes_nlen k n : nlen (be_bytes k n) = N.of_nat k.
Proof. unfold nlen. now rewrite be_bytes_length. Qed.
Lemma obind_some {A B} (o : option A) (k : A -> option B) b : obind o k = Some b -> exists a, o = Some a /\ k a = Some b.
Proof. destruct o as [a|]; [eauto|discriminate]. Qed.

Lemma enc_logs_size ls b : Forall (blob_wf 65535) ls -> nlen ls <= 255 -> enc_logs ls = Some b -> nlen b <= 1 + 255 * 65537.
Proof.
  intros HF HN. unfold enc_logs. destruct (nlen ls <=? u8_max); [|discriminate]. intros E.
  apply obind_some in E as (x & E & K). apply Some_inj in K. subst. rewrite nlen_cons.
  assert (nlen x <= nlen ls * 65537); [|nia]. clear HN. revert x E.
  induction HF as [|l ls Hl _ IH]; intros x E; cbn [enc_seq] in E.
  - apply Some_inj in E. subst. change (nlen (@nil N)) with 0. lia.
  - apply obind_some in E as (y & E1 & E). apply obind_some in E as (z & E2 & E). apply Some_inj in E. subst.
    specialize (IH z E2). unfold enc_log in E1. destruct (nlen l <=? u16_max) eqn:L; [|discriminate]. apply Some_inj in E1. subst.
    rewrite !nlen_app, be_bytes_nlen, nlen_cons. unfold u16_max in L. lia.
Qed.
Lemma enc_touched_size s b : touched_wf s -> enc_touched s = Some b -> nlen b <= 2 + 65535 * 20.
Proof.
  intros (HN & _ & HF). unfold enc_touched. destruct (nlen s <=? u16_max); [|discriminate]. intros E. apply Some_inj in E. subst.
  rewrite nlen_app, be_bytes_nlen. assert (nlen (concat s) = nlen s * 20); [|lia]. clear HN.
  induction HF as [|a s [La _] _ IH]; [reflexivity|]. cbn [concat]. rewrite nlen_app, nlen_cons, IH. unfold nlen at 1. lia.
Qed.
Lemma enc_uint_size k x b : enc_uint k x = Some b -> nlen b = N.of_nat k.
Proof. unfold enc_uint. intros E. apply Some_inj in E. subst. apply be_bytes_nlen. Qed.
Lemma enc_gas_size g b : enc_gas g = Some b -> nlen b = 8.
Proof. destruct g as [x|]; cbn [enc_gas]; apply enc_uint_size. Qed.
Lemma enc_return_size d b : blob_wf 65535 d -> enc_return d = Some b -> nlen b <= 2 + 65535.
Proof.
  intros [H _]. unfold enc_return, enc_data. destruct (_ <? _); [|discriminate]. intros E. apply Some_inj in E. subst.
  rewrite nlen_app, be_bytes_nlen. lia.
Qed.
Lemma enc_string_size s b : enc_string s = Some b -> nlen b <= 256.
Proof.
  unfold enc_string. destruct (N.ltb_spec (nlen s) 256); [|discriminate]. intros E. apply Some_inj in E. subst.
  rewrite nlen_cons. lia.
Qed.
Lemma enc_msg_size s b : enc_msg s = Some b -> nlen b <= 256.
Proof. unfold enc_msg. destruct (255 <? nlen s); [destruct (utf8_valid _); [|discriminate]|]; apply enc_string_size. Qed.
Lemma array_size n a : array_wf n a -> nlen a = N.of_nat n.
Proof. intros [H _]. unfold nlen. now rewrite H. Qed.

Ltac sizes :=
  repeat match goal with
  | H : obind _ _ = Some _ |- _ => apply obind_some in H as (? & ? & H)
  | H : enc_array _ = Some _ |- _ => unfold enc_array in H; apply Some_inj in H; subst
  | H : enc_string _ = Some _ |- _ => apply enc_string_size in H
  | H : enc_msg _ = Some _ |- _ => apply enc_msg_size in H
  | H : Some _ = Some _ |- _ => apply Some_inj in H; subst
  | H : array_wf _ _ |- _ => apply array_size in H
  | H : _ /\ _ |- _ => destruct H
  end.

Lemma enc_err_size e b : error_wf e -> enc_err_body e = Some b -> nlen b <= 552.
Proof.
  destruct e; cbn [error_wf enc_err_body]; intros W E; sizes; rewrite ?nlen_app; change (nlen (@nil N)) with 0; lia.
Qed.
Lemma enc_failure_size e ls b : error_wf e -> logs_wf ls -> enc_failure e ls = Some b -> nlen b <= 16712600.
Proof.
  intros We [L1 L2] E. unfold enc_failure in E. apply obind_some in E as (l & E1 & E). apply obind_some in E as (x & E2 & E).
  apply Some_inj in E. subst. apply enc_logs_size in E1; auto. apply enc_err_size in E2; auto. rewrite nlen_cons, nlen_app. lia.
Qed.

Lemma receipt_size r b : receipt_wf r -> enc_receipt r = Some b -> nlen b <= 4294967295.
Proof.
  destruct r as [c|c|c]; cbn [receipt_wf enc_receipt]; intros (_ & [L1 L2] & W) E.
  - unfold enc_deploy_receipt, enc_u16, enc_bool in E. apply obind_some in E as (v & V & E). apply enc_uint_size in V.
    cbn [obind] in E. destruct (dr_success c).
    + destruct W as (_ & (a & Ea & Wa) & _). rewrite Ea in E. cbn [obind enc_array] in E.
      apply obind_some in E as (g & G & E). apply enc_gas_size in G. apply obind_some in E as (l & L & E).
      apply enc_logs_size in L; auto. apply Some_inj in E. subst. apply array_size in Wa.
      rewrite nlen_cons, !nlen_app, nlen_cons. change (nlen (@nil N)) with 0. lia.
    + destruct W as (e & Ee & We). rewrite Ee in E. cbn [obind] in E. apply obind_some in E as (f & F & E).
      apply enc_failure_size in F; auto; [|split; [discriminate|constructor]]. apply Some_inj in E. subst.
      rewrite nlen_cons, !nlen_app, nlen_cons. change (nlen (@nil N)) with 0. lia.
  - unfold enc_spawn_receipt, enc_u16, enc_bool in E. apply obind_some in E as (v & V & E). apply enc_uint_size in V.
    cbn [obind] in E. destruct (sr_success c).
    + destruct W as (_ & (a & Ea & Wa) & (st & Es & Ws) & (rd & Er & Wr) & _ & Wt). rewrite Ea, Es, Er in E. cbn [obind enc_array] in E.
      apply obind_some in E as (d & D & E). apply enc_return_size in D; auto.
      apply obind_some in E as (g & G & E). apply enc_gas_size in G. apply obind_some in E as (t & T & E). apply enc_touched_size in T; auto.
      apply obind_some in E as (l & L & E).
      apply enc_logs_size in L; auto. apply Some_inj in E. subst. apply array_size in Wa, Ws.
      rewrite nlen_cons, !nlen_app, nlen_cons. change (nlen (@nil N)) with 0. lia.
    + destruct W as (e & Ee & We). rewrite Ee in E. cbn [obind] in E. apply obind_some in E as (f & F & E).
      apply enc_failure_size in F; auto; [|now split]. apply Some_inj in E. subst.
      rewrite nlen_cons, !nlen_app, nlen_cons. change (nlen (@nil N)) with 0. lia.
  - unfold enc_call_receipt, enc_u16, enc_bool in E. apply obind_some in E as (v & V & E). apply enc_uint_size in V.
    cbn [obind] in E. destruct (cr_success c).
    + destruct W as (_ & (st & Es & Ws) & (rd & Er & Wr) & _ & Wt). rewrite Es, Er in E. cbn [obind enc_array] in E.
      apply obind_some in E as (d & D & E). apply enc_return_size in D; auto.
      apply obind_some in E as (g & G & E). apply enc_gas_size in G. apply obind_some in E as (t & T & E). apply enc_touched_size in T; auto.
      apply obind_some in E as (l & L & E).
      apply enc_logs_size in L; auto. apply Some_inj in E. subst. apply array_size in Ws.
      rewrite nlen_cons, !nlen_app, nlen_cons. change (nlen (@nil N)) with 0. lia.
    + destruct W as (e & Ee & We). rewrite Ee in E. cbn [obind] in E. apply obind_some in E as (f & F & E).
      apply enc_failure_size in F; auto; [|now split]. apply Some_inj in E. subst.
      rewrite nlen_cons, !nlen_app, nlen_cons. change (nlen (@nil N)) with 0. lia.
Qed.

Lemma answer_reports {A} (enc : encoder A) (k : A -> receipt) x : enc x = enc_receipt (k x) -> receipt_wf (k x) ->
  exists b, answer enc (Some x) = RReceipt b /\ dec_receipt b = Ok (receipt_view (k x), []).
Proof.
  intros E W. destruct (receipt_rt (k x) W) as (b & Eb & D). exists b. unfold answer. rewrite E, Eb.
  pose proof (receipt_size (k x) b W Eb) as S. apply N.leb_le in S. rewrite S. split; [reflexivity|].
  specialize (D []). rewrite app_nil_r in D. exact D.
Qed.

Lemma decoded_envelope ev v : envelope_wf ev -> enc_envelope ev = Some v -> decoded dec_envelope v = Some ev.
Proof.
  intros W E. destruct (envelope_rt ev W) as (b & Eb & D). rewrite E in Eb. apply Some_inj in Eb. subst.
  specialize (D []). rewrite app_nil_r in D. unfold decoded. now rewrite D.
Qed.
Lemma decoded_context c v : context_wf c -> enc_context c = Some v -> decoded dec_context v = Some c.
Proof.
  intros W E. destruct (context_rt c W) as (b & Eb & D). rewrite E in Eb. apply Some_inj in Eb. subst.
  specialize (D []). rewrite app_nil_r in D. unfold decoded. now rewrite D.
Qed.
