(** A call depends only on the accounts it touches. *)
From Coq Require Import List NArith ZArith Bool Lia.
From Coq Require Import ZifyBool ZifyNat ZifyN.
From Verif Require Import Base CodecModel CodecSpec CodecProofs ReceiptModel ReceiptProofs LayoutModel SectionModel.
From Verif Require Import SectionSpec SectionProofs SectionCanon StorageModel StorageSpec StorageProofs GlobalModel GlobalSpec GlobalProofs.
From Verif Require Import RuntimeModel RuntimeSpec RuntimeProofs OutcomeProofs AnswerProofs AlikeSpec AlikeProofs LocalSpec.
Import ListNotations.
Open Scope N_scope.

Lemma mem_read_array mem off v : bytes_ok mem -> mem_read mem off 20 = Some v -> array_wf 20 v.
Proof.
  intros Hm. unfold mem_read. destruct (N.leb_spec (off + 20) (nlen mem)); [|discriminate]. intros E. apply Some_inj in E. subst.
  split; [rewrite firstn_length, skipn_length; unfold nlen in *; lia|]. apply firstn_ok. now apply skipn_ok.
Qed.

Lemma sbind_ok {E A B} (m : sm E A) (k : A -> sm E B) g a g' : m g = (Ok a, g') -> sbind m k g = k a g'.
Proof. intros H. unfold sbind. now rewrite H. Qed.
Lemma sbind_panic {E A B} (m : sm E A) (k : A -> sm E B) g g' : m g = (Panic, g') -> sbind m k g = (Panic, g').
Proof. intros H. unfold sbind. now rewrite H. Qed.

Section Local.
Variables (e : env) (T : bytes) (L : list bytes).

Inductive watched : bytes -> Prop :=
| w_core t : array_wf 20 t -> watched (key_core t)
| w_noncore t : array_wf 20 t -> watched (key_noncore t)
| w_record a : array_wf 20 a -> watched (key_immutable a)
| w_balance a : In a L -> watched (key_mutable a)
| w_variable n : n <= u32_max -> watched (key_segment T n).
Hint Constructors watched : local.

Definition agree (g1 g2 : gstate) : Prop :=
  gs_layer_param g1 = None /\ gs_layer_param g2 = None /\ forall k, watched k -> cur e g2 k = cur e g1 k.

Lemma agree_same_for g1 g2 : live e g1 -> live e g2 -> same_for e T L g1 g2 <-> agree g1 g2.
Proof.
  intros [_ L1] [_ L2].
  assert (K : forall k, reads_same e k g1 g2 <-> cur e g2 k = cur e g1 k).
  { intros k. unfold reads_same. rewrite !gs_get_now. cbn [fst]. split; [intros H; congruence|intros ->; reflexivity]. }
  split.
  - intros [A B C D]. split; auto. split; auto. intros k W. apply K. destruct W; auto; now apply A.
  - intros (_ & _ & H). split; intros; try split; apply K, H; auto with local.
Qed.
Lemma agree_now g1 g2 h1 h2 : same_now e g1 h1 -> same_now e g2 h2 -> agree g1 g2 -> agree h1 h2.
Proof.
  intros (_ & A & B) (_ & C & D) (_ & _ & H). split; auto. split; auto. intros k W. rewrite B, D. auto.
Qed.

Definition resl {E A} (m : sm E A) : Prop := forall g1 g2, agree g1 g2 ->
  fst (m g1) = fst (m g2) /\ agree (snd (m g1)) (snd (m g2)).

Lemma resl_sret {E A} (a : A) : resl (@sret E A a).
Proof. intros g1 g2 H. now split. Qed.
Lemma resl_spanic {E A} : resl (@spanic E A).
Proof. intros g1 g2 H. now split. Qed.
Lemma resl_sbind {E A B} (m : sm E A) (k : A -> sm E B) : resl m -> (forall a, resl (k a)) -> resl (sbind m k).
Proof.
  intros Hm Hk g1 g2 H. unfold sbind. destruct (Hm g1 g2 H) as [X Y].
  destruct (m g1) as [[a|x|] h1], (m g2) as [[a'|x'|] h2]; cbn [fst snd] in *; try discriminate X;
    first [now split|injection X as <-; now split|injection X as <-; now apply Hk].
Qed.
Lemma resl_ssome {E A} (o : option A) : resl (@ssome E A o).
Proof. destruct o; [apply resl_sret|apply resl_spanic]. Qed.
Lemma resl_sassert {E} b : resl (@sassert E b).
Proof. destruct b; [apply resl_sret|apply resl_spanic]. Qed.
Lemma resl_sunwrap {E A} (m : gm A) : @resl gs_error A m -> resl (@sunwrap E A m).
Proof.
  intros Hm g1 g2 H. unfold sunwrap. destruct (Hm g1 g2 H) as [X Y].
  destruct (m g1) as [[a|x|] h1], (m g2) as [[a'|x'|] h2]; cbn [fst snd] in *; try discriminate X; try (injection X as <-); now split.
Qed.
Lemma resl_gunwrap {A} (m : gm A) : @resl gs_error A m -> @resl gs_error A (gunwrap m).
Proof.
  intros Hm g1 g2 H. unfold gunwrap. destruct (Hm g1 g2 H) as [X Y].
  destruct (m g1) as [[a|x|] h1], (m g2) as [[a'|x'|] h2]; cbn [fst snd] in *; try discriminate X; try (injection X as <-); now split.
Qed.
Lemma resl_gret {A} (a : A) : @resl gs_error A (gret a).
Proof. exact (resl_sret a). Qed.
Lemma resl_gpanic {A} : @resl gs_error A gpanic.
Proof. exact resl_spanic. Qed.
Lemma resl_gsome {A} (o : option A) : @resl gs_error A (gsome o).
Proof. destruct o; [apply resl_gret|apply resl_gpanic]. Qed.
Lemma resl_gbind {A B} (m : gm A) (k : A -> gm B) : @resl gs_error A m -> (forall a, @resl gs_error B (k a)) ->
  @resl gs_error B (gbind m k).
Proof. exact (resl_sbind m k). Qed.
Lemma resl_get k : watched k -> @resl gs_error _ (gs_get e k None).
Proof. intros W g1 g2 H. rewrite !gs_get_now. cbn [fst snd]. split; auto. destruct H as (_ & _ & H). now rewrite (H k W). Qed.
Lemma resl_upsert k v : @resl gs_error _ (gs_upsert e k v).
Proof.
  intros g1 g2 (H1 & H2 & H3). split; [reflexivity|]. split; [exact H1|]. split; [exact H2|].
  intros k' W. unfold cur, get. cbn [gs_upsert snd gs_storage]. unfold upsert. rewrite !get_upsert.
  destruct (bytes_eqb (env_hash e k') (env_hash e k)); [reflexivity|]. exact (H3 k' W).
Qed.
Lemma resl_read {A} (d : decoder A) k : watched k -> @resl gs_error A (read_and_decode e d k).
Proof.
  intros W g1 g2 H. assert (X : forall g, gs_layer_param g = None -> read_and_decode e d k g =
    (match cur e g k with None => Err GNotFound | Some bs => match d bs with Ok (a, _) => Ok a | Err _ => Err GIllegalData | Panic => Panic end end, g)).
  { intros g G. unfold read_and_decode, gbind. rewrite G. cbn [option_map]. rewrite gs_get_now.
    destruct (cur e g k) as [v|]; [|reflexivity]. destruct (d v) as [[? ?]| |]; reflexivity. }
  destruct H as (H1 & H2 & H3). rewrite !X by auto. cbn [fst snd]. rewrite (H3 k W). split; [reflexivity|]. split; auto.
Qed.
Hint Resolve resl_sret resl_spanic resl_ssome resl_sassert resl_gret resl_gpanic resl_gsome
  resl_get resl_upsert resl_read : local.
Ltac local := repeat (intros;
  first [ solve [eauto with local]
        | apply resl_gbind | apply resl_sbind | apply resl_sunwrap | apply resl_gunwrap
        | match goal with |- resl (match ?x with _ => _ end) => destruct x end ]).

Lemma resl_write {A} (enc : encoder A) x k : @resl gs_error _ (encode_and_write e enc x k).
Proof. unfold encode_and_write. local. Qed.
Hint Resolve resl_write : local.
Lemma resl_sections a : array_wf 20 a -> @resl gs_error _ (template_sections e a).
Proof. unfold template_sections. local. Qed.
Hint Resolve resl_sections : local.
Lemma resl_tlayout a : array_wf 20 a -> @resl gs_error _ (template_layout e a).
Proof. unfold template_layout. local. Qed.
Hint Resolve resl_tlayout : local.
Lemma resl_template a : array_wf 20 a -> @resl gs_error _ (account_template e a).
Proof. unfold account_template. local. Qed.
Lemma resl_balance a : In a L -> @resl gs_error _ (account_balance e a).
Proof. unfold account_balance. local. Qed.
Lemma resl_set_balance a b : In a L -> @resl gs_error _ (set_balance e a b).
Proof. unfold set_balance, replace. local. Qed.
Lemma resl_rsegment n : n <= u32_max -> @resl gs_error _ (read_segment e T n).
Proof. unfold read_segment. local. Qed.
Hint Resolve resl_template resl_balance resl_set_balance resl_rsegment : local.
Lemma resl_rsegments l : Forall (fun s => sg_index s <= u32_max) l -> @resl gs_error _ (read_segments e T l).
Proof. induction 1; cbn [read_segments]; local. Qed.
Lemma resl_wsegments l : Forall (fun s => sg_index s <= u32_max) l -> forall v, @resl gs_error _ (write_segments e T l v).
Proof. induction 1; intros v; cbn [write_segments]; local. Qed.
Lemma segments_bound fuel : forall i r m, i + N.of_nat fuel <= m -> Forall (fun s => sg_index s <= m) (segments_loop fuel i r).
Proof.
  induction fuel as [|fuel IH]; intros i r m H; cbn [segments_loop]; [constructor|].
  destruct (r =? 0); constructor; [cbn [sg_index]; lia|apply IH; lia].
Qed.
Lemma range_bound a id n size segs : var_range a id n = Some (size, segs) -> Forall (fun s => sg_index s <= u32_max) segs.
Proof.
  unfold var_range, obind. destruct (layout_get (ac_layout a) id) as [v|]; [|discriminate].
  destruct (n <? rv_size v); [discriminate|]. destruct (u32_max <? rv_offset v + rv_size v) eqn:E; [discriminate|].
  unfold var_segments. destruct (rv_size v =? 0) eqn:Z; [discriminate|]. intros X. injection X as _ <-.
  assert (D : rv_offset v / SEGMENT_SIZE <= rv_offset v) by (unfold SEGMENT_SIZE; apply N.div_le_upper_bound; lia).
  constructor; [cbn [sg_index]; lia|]. apply segments_bound. lia.
Qed.
Hint Resolve resl_rsegments resl_wsegments : local.
Lemma resl_range {A} a n b (k : N * list segment -> gm A) :
  (forall p, Forall (fun s => sg_index s <= u32_max) (snd p) -> @resl gs_error _ (k p)) ->
  @resl gs_error _ (gbind (gsome (var_range a n b)) k).
Proof.
  intros H. destruct (var_range a n b) as [[size segs]|] eqn:E.
  - apply range_bound in E. cbn [gsome]. change (@resl gs_error _ (k (size, segs))). now apply H.
  - intros g1 g2 G. now split.
Qed.
Lemma resl_get_var a n b : ac_addr a = T -> @resl gs_error _ (get_var e a n b).
Proof. intros H. unfold get_var. rewrite H. apply resl_range. intros [size segs] F. cbn [snd] in F. local. Qed.
Lemma resl_set_var a n b : ac_addr a = T -> @resl gs_error _ (set_var_bytes e a n b).
Proof. intros H. unfold set_var_bytes. rewrite H. apply resl_range. intros [size segs] F. cbn [snd] in F. local. Qed.
Hint Resolve resl_get_var resl_set_var : local.
Lemma resl_i64 a n : ac_addr a = T -> @resl gs_error _ (get_var_i64 e a n).
Proof. intros H. unfold get_var_i64, get_var_array. local. Qed.
Hint Resolve resl_i64 : local.

Hypothesis HI : iterates e.
Hypothesis HC : collision_free e.
Hypothesis HT : array_wf 20 T.

Lemma load_local a g1 g2 : live e g1 -> array_wf 20 a -> agree g1 g2 -> fst (account_load e a g1) = fst (account_load e a g2).
Proof.
  intros HL Ha H. destruct (resl_read dec_account_data (key_immutable a) (w_record a Ha) g1 g2 H) as [X _].
  pose proof (fun t => account_template_wf e a g1 t HI HC HL Ha) as W. unfold account_template in W. unfold account_load, gbind in *.
  pose proof (reads_decode e dec_account_data (key_immutable a) g1) as R1. pose proof (reads_decode e dec_account_data (key_immutable a) g2) as R2.
  destruct (read_and_decode e dec_account_data (key_immutable a) g1) as [[d|?|] h1], (read_and_decode e dec_account_data (key_immutable a) g2) as [[d'|?|] h2];
    cbn [fst snd] in *; subst; try discriminate X; try (injection X as <-); auto.
  assert (Wd : array_wf 20 (ad_template d)) by (eapply W; eauto).
  destruct (resl_tlayout (ad_template d) Wd g1 g2 H) as [Y _].
  destruct (template_layout e (ad_template d) g1) as [[?|?|] ?], (template_layout e (ad_template d) g2) as [[?|?|] ?]; cbn [fst] in *;
    try discriminate Y; try (injection Y as <-); reflexivity.
Qed.
Lemma sunwrap_load {E} a g1 g2 : live e g1 -> array_wf 20 a -> agree g1 g2 ->
  (exists x, @sunwrap E _ (account_load e a) g1 = (Ok x, g1) /\ @sunwrap E _ (account_load e a) g2 = (Ok x, g2))
  \/ (@sunwrap E _ (account_load e a) g1 = (Panic, g1) /\ @sunwrap E _ (account_load e a) g2 = (Panic, g2)).
Proof.
  intros HL Ha H. pose proof (load_local a g1 g2 HL Ha H) as X. unfold sunwrap.
  pose proof (reads_load e a g1) as R1. pose proof (reads_load e a g2) as R2.
  destruct (account_load e a g1) as [[d|?|] h1], (account_load e a g2) as [[d'|?|] h2];
    cbn [fst snd] in *; subst; try discriminate X; try (injection X as <-); eauto.
Qed.
Lemma local_between s d n g1 g2 : live e g1 -> array_wf 20 s -> array_wf 20 d -> In s L -> In d L -> agree g1 g2 ->
  fst (transfer_between e s d n g1) = fst (transfer_between e s d n g2) /\ agree (snd (transfer_between e s d n g1)) (snd (transfer_between e s d n g2)).
Proof.
  intros HL Ws Wd Hs Hd H. unfold transfer_between.
  destruct (@sunwrap_load unit s g1 g2 HL Ws H) as [(x & E1 & E2)|[E1 E2]].
  2:{ rewrite (sbind_panic _ _ _ _ E1), (sbind_panic _ _ _ _ E2). now split. }
  rewrite (sbind_ok _ _ _ _ _ E1), (sbind_ok _ _ _ _ _ E2).
  destruct (@sunwrap_load unit d g1 g2 HL Wd H) as [(y & E3 & E4)|[E3 E4]].
  2:{ rewrite (sbind_panic _ _ _ _ E3), (sbind_panic _ _ _ _ E4). now split. }
  rewrite (sbind_ok _ _ _ _ _ E3), (sbind_ok _ _ _ _ _ E4).
  match goal with |- fst (?m g1) = _ /\ _ => assert (R : resl m) end; [|exact (R g1 g2 H)].
  local.
Qed.

(** One host call that touches listed accounts only. *)
Lemma local_host f mem c g1 g2 v mem' f' h1 : live e g1 -> bytes_ok mem -> ac_addr (fe_account f) = T -> agree g1 g2 ->
  host_call e f mem c g1 = (Ok (v, mem', f'), h1) -> incl (fe_touched f') L ->
  exists h2, host_call e f mem c g2 = (Ok (v, mem', f'), h2) /\ agree h1 h2.
Proof.
  intros HLv Hmem Ha H E HL.
  assert (K : resl (host_call e f mem c) -> exists h2, host_call e f mem c g2 = (Ok (v, mem', f'), h2) /\ agree h1 h2).
  { intros R. destruct (R g1 g2 H) as [X Y]. rewrite E in X, Y. destruct (host_call e f mem c g2) as [r h2]. cbn [fst snd] in *. subst r. eauto. }
  destruct c; try (apply K; cbn [host_call]; unfold set_var_i32, set_var_i64, get_var_array; local; fail).
  cbn [host_call] in E |- *. destruct (amount =? 0); [unfold sret in E |- *; injection E as <- <- <- <-; eauto|].
  unfold sbind, sassert, ssome in E |- *.
  destruct (fe_memory f); [|discriminate E]. unfold sret at 1 in E. unfold sret at 1.
  destruct (mem_read mem src 20) as [sa|] eqn:Es; [|discriminate E]. unfold sret at 1 in E. unfold sret at 1.
  destruct (mem_read mem dst 20) as [da|] eqn:Ed; [|discriminate E]. unfold sret at 1 in E. unfold sret at 1.
  destruct (can_read f); [|discriminate E]. unfold sret at 1 in E. unfold sret at 1.
  destruct (transfer_between e sa da amount g1) as [[[]|[]|] k1] eqn:ET; try discriminate E.
  injection E as <- <- <- <-.
  assert (Is : In sa L) by (apply HL; cbn [touch fe_touched]; rewrite !set_insert_in; auto).
  assert (Id : In da L) by (apply HL; cbn [touch fe_touched]; rewrite !set_insert_in; auto).
  destruct (local_between sa da amount g1 g2 HLv (mem_read_array _ _ _ Hmem Es) (mem_read_array _ _ _ Hmem Ed) Is Id H) as [X Y]. rewrite ET in X, Y.
  destruct (transfer_between e sa da amount g2) as [r k2]. cbn [fst snd] in *. subst r. eexists. split; [reflexivity|exact Y].
Qed.

Lemma local_wasm {R} (t : wasm R) : wasm_wf t -> forall f g1 g2 mem' r f' h1, live e g1 -> ac_addr (fe_account f) = T -> agree g1 g2 ->
  run_wasm e t f g1 = (Ok (mem', r, f'), h1) -> incl (fe_touched f') L ->
  exists h2, run_wasm e t f g2 = (Ok (mem', r, f'), h2) /\ agree h1 h2.
Proof.
  intros Hw. induction Hw as [mem x Hm|msg|mem c k Hm Hk IH]; intros f g1 g2 mem' r f' h1 HL Ha H E HT'; cbn [run_wasm] in *.
  - injection E as <- <- <- <-. eauto.
  - discriminate E.
  - destruct (host_call e f mem c g1) as [[[[v m1] f1]|?|] k1] eqn:E1; try discriminate E.
    pose proof E1 as C1. apply host_call_cases in C1; auto; [|now rewrite Ha]. destruct C1 as (HL1 & Hm1 & (S1 & _) & _).
    assert (Ha1 : ac_addr (fe_account f1) = T) by congruence.
    pose proof E as C2. apply (run_wasm_cases e (k v m1) HI HC (Hk v m1 Hm1)) in C2; auto; [|now rewrite Ha1].
    destruct C2 as (_ & _ & (_ & _ & _ & I2) & _).
    destruct (local_host f mem c g1 g2 v m1 f1 k1 HL Hm Ha H E1 ltac:(eapply incl_tran; eauto)) as (k2 & E2 & H2).
    rewrite E2. eapply (IH v m1 Hm1); eauto.
Qed.

Variable en : engine.
Hypothesis HE : engine_wf en.

Lemma local_wasmer i f name ps mem g1 g2 mem' rets i' logs f' h1 : live e g1 -> ac_addr (fe_account f) = T -> bytes_ok mem -> agree g1 g2 ->
  wasmer_call e en i f name ps mem g1 = (Ok (mem', rets, i', logs, f'), h1) -> incl (fe_touched f') L ->
  (exists h2, wasmer_call e en i f name ps mem g2 = (Ok (mem', rets, i', logs, f'), h2) /\ agree h1 h2).
Proof.
  intros HL Ha Hm H E HT'. unfold wasmer_call in *.
  destruct (run_wasm e (en_call en i name ps mem) f g1) as [[[[m1 [rs i1]] f1]|[? ?]|] k1] eqn:E1; try discriminate E.
  injection E as <- <- <- <- <- <-.
  destruct (local_wasm _ (proj2 HE _ _ _ _ Hm) f g1 g2 m1 (rs, i1) f1 k1 HL Ha H E1 HT') as (k2 & E2 & H2).
  rewrite E2. eauto.
Qed.

Lemma local_run cl l f g1 g2 mem logs f' h1 : live e g1 -> ac_addr (fe_account f) = T -> bytes_ok (cl_input cl) -> agree g1 g2 ->
  run e en cl l f g1 = (Ok (mem, logs, f'), h1) -> incl (fe_touched f') L ->
  exists h2, run e en cl l f g2 = (Ok (mem, logs, f'), h2) /\ agree h1 h2.
Proof.
  intros HL Ha Hin H E HT'. unfold run in *.
  assert (V : forall g, exists r, validate_func_usage cl l f g = (r, g) /\ forall g', fst (validate_func_usage cl l f g') = r).
  { intros g. unfold validate_func_usage, ensure_ctor, sbind, ssome.
    destruct (cl_within_spawn cl), (is_ctor l (cl_func cl)) as [[]|]; eexists; split; reflexivity. }
  destruct (V g1) as (rv & V1 & V2). destruct (V g2) as (rv' & V3 & _). pose proof (V2 g2) as V4. rewrite V3 in V4. cbn [fst] in V4. subst rv'.
  unfold sbind at 1. unfold sbind at 1 in E. rewrite V1 in E. rewrite V3. destruct rv as [u|?|]; try discriminate E.
  unfold sbind at 1. unfold sbind at 1 in E. unfold instantiate in *. unfold sbind at 1. unfold sbind at 1 in E.
  destruct (code_of l) as [c|]; cbn [ssome] in *; [|discriminate E]. unfold sret at 1. unfold sret at 1 in E.
  destruct (en_compile en (cs_code c)); [discriminate E|].
  destruct (run_wasm e (en_instantiate en (cs_code c)) f g1) as [[[[m0 i] f0]|[? ?]|] k1] eqn:E0; try discriminate E.
  pose proof E0 as C0. apply (run_wasm_cases e _ HI HC (proj1 HE _)) in C0; auto; [|now rewrite Ha].
  destruct C0 as (HL0 & Hm0 & (S0 & _ & _ & I0) & _).
  unfold sbind at 1 in E. destruct (en_has_memory en i) eqn:EM; cbn [sassert] in E; [|discriminate E]. unfold sret at 1 in E.
  set (f1 := with_memory f0) in *.
  destruct (func en i f1 (cl_func cl) SigUnit) eqn:EF; [discriminate E|].
  unfold sbind at 1 in E.
  assert (Ha1 : ac_addr (fe_account f1) = T) by (cbn [f1 with_memory fe_account]; congruence).
  assert (Hw1 : array_wf 20 (ac_addr (fe_account f1))) by now rewrite Ha1.
  (* the called function, possibly after svm_alloc *)
  set (body := fun g => (if 0 <? nlen (cl_input cl) then call_with_alloc e en i f1 (cl_func cl) (cl_input cl) m0
       else wasmer_call e en i f1 (cl_func cl) [] m0) g).
  change ((if 0 <? nlen (cl_input cl) then call_with_alloc e en i f1 (cl_func cl) (cl_input cl) m0
       else wasmer_call e en i f1 (cl_func cl) [] m0) k1) with (body k1) in E.
  destruct (body k1) as [[[[[[m2 rets] i2] lg] f2]|?|] k3] eqn:EB; try discriminate E. injection E as <- <- <- <-.
  assert (B : incl (fe_touched f1) (fe_touched f2) /\ forall k2, agree k1 k2 -> exists k4, body k2 = (Ok (m2, rets, i2, lg, f2), k4) /\ agree k3 k4).
  { unfold body in *. destruct (0 <? nlen (cl_input cl)).
    - pose proof EB as CB. apply call_with_alloc_cases in CB; auto. destruct CB as (_ & _ & (_ & _ & _ & IB) & _). split; [exact IB|].
      intros k2 H2. unfold call_with_alloc in *. destruct (func en i f1 svm_alloc SigAlloc); [discriminate EB|].
      unfold sbind at 1 in EB. unfold sbind at 1.
      destruct (wasmer_call e en i (with_mode AccessDenied f1) svm_alloc [nlen (cl_input cl)] m0 k1) as [[[[[[ma ra] ia] la] fa]|?|] ka] eqn:EA; try discriminate EB.
      pose proof EA as CA. apply wasmer_call_cases in CA; auto. destruct CA as (HLa & Hma & (Sa & _) & _).
      unfold sbind at 1 in EB. destruct (nth_error ra 0) as [off|] eqn:EN; cbn [ssome] in EB; [|discriminate EB]. unfold sret at 1 in EB.
      unfold sbind at 1 in EB. destruct (fe_returndata (with_mode (fe_mode f1) fa)) eqn:ER; cbn [sassert] in EB; [discriminate EB|]. unfold sret at 1 in EB.
      unfold sbind at 1 in EB. destruct (mem_write ma off (cl_input cl)) as [mb|] eqn:EW; cbn [ssome] in EB; [|discriminate EB]. unfold sret at 1 in EB.
      assert (Hmb : bytes_ok mb).
      { unfold mem_write in EW. destruct (_ <=? _); [|discriminate]. apply Some_inj in EW. subst. now apply splice_ok. }
      assert (Haa : ac_addr (fe_account fa) = T) by (cbn in Sa; congruence).
      pose proof EB as CB. apply wasmer_call_cases in CB; auto; [|cbn; now rewrite Haa]. destruct CB as (_ & _ & (_ & _ & _ & Ib) & _). cbn in Ib.
      destruct (local_wasmer i (with_mode AccessDenied f1) svm_alloc _ m0 k1 k2 ma ra ia la fa ka HL0 Ha1 Hm0 H2 EA (incl_tran Ib HT')) as (kb & EA2 & HA2).
      rewrite EA2. unfold sbind at 1. rewrite EN. cbn [ssome]. unfold sret at 1. unfold sbind at 1. rewrite ER. cbn [sassert]. unfold sret at 1.
      unfold sbind at 1. rewrite EW. cbn [ssome]. unfold sret at 1.
      eapply local_wasmer; eauto.
    - pose proof EB as CB. apply wasmer_call_cases in CB; auto. destruct CB as (_ & _ & (_ & _ & _ & IB) & _). split; [exact IB|].
      intros k2 H2. eapply local_wasmer; eauto. }
  destruct B as [IB B].
  destruct (local_wasm _ (proj1 HE _) f g1 g2 m0 i f0 k1 HL Ha H E0 (incl_tran IB HT')) as (k2 & E2 & H2).
  rewrite E2. unfold sbind at 1. rewrite EM. cbn [sassert]. unfold sret at 1. fold f1. rewrite EF. unfold sbind at 1.
  destruct (B k2 H2) as (k4 & E4 & H4).
  change ((if 0 <? nlen (cl_input cl) then call_with_alloc e en i f1 (cl_func cl) (cl_input cl) m0
       else wasmer_call e en i f1 (cl_func cl) [] m0) k2) with (body k2). rewrite E4. exists k4. split; [reflexivity|exact H4].
Qed.
End Local.

(** A whole call that succeeds. *)
Lemma local_exec e en cl g1 g2 rc h1 : iterates e -> collision_free e -> engine_wf en -> live e g1 -> live e g2 ->
  array_wf 20 (cl_target cl) -> bytes_ok (cl_input cl) ->
  agree e (cl_target cl) (cr_touched rc) g1 g2 -> exec e en cl g1 = (Ok rc, h1) ->
  exists rc2 h2, exec e en cl g2 = (Ok rc2, h2) /\ but_state rc2 = but_state rc /\ agree e (cl_target cl) (cr_touched rc) h1 h2
    /\ live e h1 /\ live e h2.
Proof.
  intros HI HC HE L1 L2 Ht Hin H. unfold exec, load_template.
  set (P := fun (m : sm failure call_receipt) => m g1 = (Ok rc, h1) -> exists rc2 h2, m g2 = (Ok rc2, h2) /\ but_state rc2 = but_state rc
    /\ agree e (cl_target cl) (cr_touched rc) h1 h2 /\ live e h1 /\ live e h2).
  assert (G : forall A (m : gm A) (k : A -> sm failure call_receipt), fst (m g1) = fst (m g2) -> (forall g, snd (m g) = g) ->
    (forall a, fst (m g1) = Ok a -> P (k a)) -> P (sbind (sunwrap m) k)).
  { intros A m k X Hr K. unfold P, sbind, sunwrap. pose proof (Hr g1) as R1. pose proof (Hr g2) as R2.
    destruct (m g1) as [[a|x|] h1'], (m g2) as [[a'|x'|] h2']; cbn [fst snd] in *; subst; try discriminate X; try discriminate.
    injection X as <-. now apply K. }
  apply G; [eapply load_local; eauto|apply reads_load|]. intros a0 _.
  apply G; [now apply (resl_template e (cl_target cl) (cr_touched rc))|apply reads_tmpl|]. intros ta Eta.
  apply G; [apply (resl_sections e (cl_target cl) (cr_touched rc) ta); [eapply (account_template_wf e (cl_target cl) g1); eauto|exact H]|apply reads_sections|]. intros l _.
  apply G; [eapply load_local; eauto|apply reads_load|]. intros a E1.
  assert (Ha : ac_addr a = cl_target cl) by (eapply load_addr; eauto).
  unfold P, sbind. set (f0 := env_new a (cl_template cl) (cl_mode cl)).
  destruct (run e en cl l f0 g1) as [[[[mem logs] f]|?|] k1] eqn:R1; try discriminate.
  intros EO. pose proof R1 as C1. apply run_cases in C1; auto; [|cbn; now rewrite Ha]. destruct C1 as [K1 _].
  pose proof EO as O1. apply outcome_cases in O1; auto. destruct O1 as (HL1 & S1 & Hmode & _ & _ & Htch & _).
  destruct (local_run e (cl_target cl) (cr_touched rc) HI HC Ht en HE cl l f0 g1 g2 mem logs f k1 L1 Ha Hin H R1
    ltac:(rewrite Htch; apply incl_refl)) as (k2 & R2 & H2).
  rewrite R2. pose proof R2 as C2. apply run_cases in C2; auto; [|cbn; now rewrite Ha]. destruct C2 as [K2 _].
  pose proof (outcome_answer e mem logs f k1 HI K1) as A1. pose proof (outcome_answer e mem logs f k2 HI K2) as A2.
  rewrite <- A1 in A2. rewrite EO in A2. cbn [fst without_state] in A2.
  destruct (outcome_to_receipt e mem logs f k2) as [[rc2|?|] h2] eqn:E2; try discriminate A2.
  pose proof E2 as O2. apply outcome_cases in O2; auto. destruct O2 as (HL2 & S2 & _). cbn [fst without_state] in A2. 
  exists rc2, h2. split; [reflexivity|]. split; [exact (f_equal (fun o => match o with Ok x => x | _ => but_state rc end) A2)|]. split; [|now split].
  eapply agree_now; eauto.
Qed.

Lemma local_call e en m tx g1 g2 rc h1 : iterates e -> collision_free e -> engine_wf en -> live e g1 -> live e g2 -> bytes_ok m ->
  decoded dec_transaction m = Some tx ->
  agree e (tx_target tx) (cr_touched rc) g1 g2 -> rt_call e en m g1 = (Some rc, h1) -> cr_success rc = true ->
  exists rc2 h2, rt_call e en m g2 = (Some rc2, h2) /\ but_state rc2 = but_state rc /\ agree e (tx_target tx) (cr_touched rc) h1 h2
    /\ live e h1 /\ live e h2.
Proof.
  intros HI HC HE L1 L2 Hm Ed H. unfold rt_call. rewrite Ed. unfold transact.
  assert (Hw : transaction_wf tx) by (eapply decoded_canon; eauto using transaction_canon). destruct Hw as [S1 S2 S3 S4 S5].
  set (b := build_call e tx FullAccess (tx_func_name tx) (tx_calldata tx)).
  assert (X : fst (b g1) = fst (b g2)).
  { unfold b, build_call, gbind, gunwrap.
    pose proof (load_local e (tx_target tx) (cr_touched rc) HI HC (tx_target tx) g1 g2 L1 S2 H) as X.
    pose proof (reads_load e (tx_target tx) g1) as R1. pose proof (reads_load e (tx_target tx) g2) as R2.
    destruct (account_load e (tx_target tx) g1) as [[?|?|] ?], (account_load e (tx_target tx) g2) as [[?|?|] ?]; cbn [fst snd] in *; subst; try discriminate X; auto.
    destruct (resl_template e (tx_target tx) (cr_touched rc) (tx_target tx) S2 g1 g2 H) as [Y _].
    destruct (account_template e (tx_target tx) g1) as [[?|?|] ?], (account_template e (tx_target tx) g2) as [[?|?|] ?]; cbn [fst snd] in *; try discriminate Y;
      try (injection Y as <-); reflexivity. }
  unfold b in *.
  destruct (build_call_reads e tx FullAccess (tx_func_name tx) (tx_calldata tx) g1) as [(cl & E1 & _ & _ & Et & Ei & _)|E1]; rewrite E1 in *; [|discriminate].
  destruct (build_call_reads e tx FullAccess (tx_func_name tx) (tx_calldata tx) g2) as [(cl' & E2 & _)|E2]; rewrite E2 in *; cbn [fst] in X; [|discriminate X].
  injection X as <-. unfold exec_call. intros E Hs.
  destruct (exec e en cl g1) as [[r|[? ?]|] k] eqn:EE; try discriminate E; injection E as E Ek; subst; [|discriminate Hs].
  rewrite <- Et in H |- *. destruct (local_exec e en cl g1 g2 rc h1 HI HC HE L1 L2) as (rc2 & h2 & R & Z); auto; [now rewrite Et|rewrite Ei; apply S5|].
  rewrite R. eauto.
Qed.
