(** Proofs about what calls leave in the variables. *)
From Coq Require Import List NArith ZArith Bool Lia.
From Coq Require Import ZifyBool ZifyNat ZifyN.
From Verif Require Import Base CodecModel CodecSpec CodecProofs ReceiptModel ReceiptProofs LayoutModel LayoutSpec LayoutProofs SectionModel.
From Verif Require Import SectionSpec SectionProofs SectionCanon StorageModel StorageSpec StorageProofs GlobalModel GlobalSpec GlobalProofs.
From Verif Require Import RuntimeModel RuntimeSpec RuntimeProofs SupplySpec SupplyProofs ObserveSpec ObserveProofs PaySpec TraceProofs StoredSpec.
Import ListNotations.
Open Scope N_scope.

Lemma reads_var_vec e a id : reads (get_var_vec e a id).
Proof.
  unfold get_var_vec. apply reads_bind; [|intros; apply reads_get_var].
  intros g. unfold gsome. now destruct (layout_get _ _).
Qed.
Lemma var_vec_state e a id g v : fst (get_var_vec e a id g) = Ok v -> get_var_vec e a id g = (Ok v, g).
Proof. pose proof (reads_var_vec e a id g). destruct (get_var_vec e a id g). cbn in *. now intros ->; subst. Qed.

Lemma stores_of_app h1 h2 : stores_of (h1 ++ h2) = stores_of h1 ++ stores_of h2.
Proof. apply flat_map_app. Qed.
Lemma last_stored_app id size old w1 w2 : last_stored id size old (w1 ++ w2) = last_stored id size (last_stored id size old w1) w2.
Proof. apply fold_left_app. Qed.

Section Stored.
Variables (e : env) (a : account) (first : N) (sizes : list N).
Hypothesis HI : iterates e.
Hypothesis HC : collision_free e.
Hypothesis Haw : array_wf 20 (ac_addr a).
Hypothesis HF : from_byte_sizes first sizes = Some (ac_layout a).

Definition fits (w : list (N * bytes)) : Prop :=
  forall id v, In (id, v) w -> exists i s, id = first + N.of_nat i /\ nth_error sizes i = Some s /\ 0 < s <= nlen v.
(** From [g] to [g'] the variables of [a] changed by the stores [w]. *)
Definition kept (g g' : gstate) (w : list (N * bytes)) : Prop :=
  fits w /\ forall i s old, nth_error sizes i = Some s -> 0 < s ->
    fst (get_var_vec e a (first + N.of_nat i) g) = Ok old ->
    fst (get_var_vec e a (first + N.of_nat i) g') = Ok (last_stored (first + N.of_nat i) s old w).

Lemma kept_nil g g' : (forall id, fst (get_var_vec e a id g') = fst (get_var_vec e a id g)) -> kept g g' [].
Proof. intros H. split; [intros ? ? []|]. intros. now rewrite H. Qed.
Lemma kept_app g1 g2 g3 w1 w2 : kept g1 g2 w1 -> kept g2 g3 w2 -> kept g1 g3 (w1 ++ w2).
Proof.
  intros [A1 A2] [B1 B2]. split.
  - intros id v H. apply in_app_iff in H as [H|H]; auto.
  - intros i s old Hi H0 H. rewrite last_stored_app. auto.
Qed.
Lemma kept_now g g' : live e g -> live e g' -> same_now e g g' -> kept g g' [].
Proof.
  intros HL HL' SN. apply kept_nil. intros id.
  apply (ue_vars _ _ _ _ _ (same_now_unchanged e nobody nobody g g' (live_typed e g HI HC HL) (live_typed e g' HI HC HL') SN)); auto.
Qed.

Lemma kept_set id v g g' : live e g -> bytes_ok v -> set_var_bytes e a id v g = (Ok tt, g') -> kept g g' [(id, v)].
Proof.
  intros [HR HP] Hv E. pose proof (reachable_typed e g HI HC HR) as HT.
  assert (X : exists size segs, var_range a id (nlen v) = Some (size, segs)).
  { unfold set_var_bytes, gbind in E. destruct (var_range a id (nlen v)) as [[size segs]|]; [eauto|discriminate]. }
  destruct X as (size & segs & X). apply var_range_some in X. destruct X as (r & Hg & -> & Hl & Hs & _).
  pose proof (layout_get_spec first sizes _ id HF) as K. rewrite Hg in K. destruct K as (j & -> & Hj & HD).
  destruct (nth_error sizes j) as [sj|] eqn:Ej; [|apply nth_error_None in Ej; lia].
  destruct (declared_get _ _ _ _ _ HF Ej) as (r' & Hg' & _ & Es & _). rewrite Hg in Hg'. injection Hg' as <-.
  assert (0 < sj).
  { destruct (N.eq_dec sj 0) as [E0|]; [|lia]. exfalso. rewrite Es, E0 in Hs. discriminate Hs. }
  split.
  { intros id' v' [[= <- <-]|[]]. exists j, sj. split; [reflexivity|]. split; [exact Ej|]. lia. }
  intros i s old Hi H0 Ho. unfold last_stored. cbn [fold_left fst snd].
  destruct (N.eqb_spec (first + N.of_nat j) (first + N.of_nat i)) as [Eij|Nij].
  - assert (j = i) by lia. subst j. rewrite Hi in Ej. injection Ej as <-.
    destruct (set_then_get e g a first sizes i s v HI HC HR Haw HF Hi H0 ltac:(lia) Hv) as (g2 & E2 & _ & G2).
    rewrite E in E2. injection E2 as <-. now rewrite G2.
  - destruct (set_isolated e g a first sizes j sj v g' HI HC HR Haw HF Ej Hv E) as (K & _). rewrite K; [exact Ho|lia].
Qed.

Lemma kept_host f mem c g v mem' f' g' : fe_account f = a -> live e g -> bytes_ok mem ->
  host_call e f mem c g = (Ok (v, mem', f'), g') -> kept g g' (stores_of [(c, mem)]).
Proof.
  intros Hfa HL Hm E.
  assert (KS : forall id bs, bytes_ok bs ->
     (let^ _ := @sassert unit (can_write f) in let^ _ := sunwrap (set_var_bytes e (fe_account f) id bs) in sret (0, mem, f)) g = (Ok (v, mem', f'), g') ->
     kept g g' [(id, bs)]).
  { intros id bs Hbs. unfold sbind at 1. destruct (can_write f); cbn [sassert]; [|discriminate].
    unfold sret at 1, sbind, sunwrap. rewrite Hfa.
    destruct (set_var_bytes e a id bs g) as [[[]|?|] g1] eqn:E1; try discriminate. intros [= _ _ _ <-]. now apply kept_set. }
  assert (KR : writes_nothing c -> kept g g' []).
  { intros H. pose proof (host_pure e f mem c g H) as R. rewrite E in R. cbn in R. subst. now apply kept_nil. }
  destruct c; try (apply KR; exact Logic.I); cbn [host_call] in E.
  - unfold set_var_i32 in E. exact (KS _ _ (le_bytes_ok _ _) E).
  - unfold set_var_i64 in E. exact (KS _ _ (le_bytes_ok _ _) E).
  - unfold sbind at 1 in E. destruct (fe_memory f); cbn [sassert] in E; [|discriminate]. unfold sret at 1 in E.
    unfold sbind at 1 in E. destruct (mem_read mem ptr 20) as [w|] eqn:Er; cbn [ssome] in E; [|discriminate]. unfold sret at 1 in E.
    unfold stores_of. cbn [flat_map app]. rewrite <- (mem_read_slice _ _ _ _ Er).
    refine (KS _ w _ E). unfold mem_read in Er. destruct (_ <=? _); [|discriminate]. apply Some_inj in Er. subst.
    now apply firstn_ok, skipn_ok.
  - change (stores_of _) with (@nil (N * bytes)).
    destruct (N.eqb_spec amount 0) as [H0|H0]; [injection E as _ _ _ <-; now apply kept_nil|].
    unfold sbind in E. destruct (fe_memory f); cbn [sassert] in E; unfold sret, spanic in E; [|discriminate].
    assert (MR : forall off w, mem_read mem off 20 = Some w -> array_wf 20 w).
    { intros off w. unfold mem_read. destruct (N.leb_spec (off + 20) (nlen mem)); [|discriminate]. intros Ee. apply Some_inj in Ee. subst.
      split; [rewrite firstn_length, skipn_length; unfold nlen in *; lia|now apply firstn_ok, skipn_ok]. }
    destruct (mem_read mem src 20) as [sa|] eqn:Es; cbn [ssome] in E; unfold sret, spanic in E; [|discriminate].
    destruct (mem_read mem dst 20) as [da|] eqn:Ed; cbn [ssome] in E; unfold sret, spanic in E; [|discriminate].
    destruct (can_read f); cbn [sassert] in E; unfold sret, spanic in E; [|discriminate].
    rewrite transfer_between_eq in E.
    destruct (fst (account_load e sa g)); try discriminate. destruct (fst (account_load e da g)); try discriminate.
    destruct (move_coins e sa da amount g) as [r1 g1] eqn:Em.
    destruct (move_coins_cases e sa da amount g r1 g1 HI HC HL (MR _ _ Es) (MR _ _ Ed) Em) as (HL1 & M1 & K1).
    destruct r1 as [[]|?|]; try discriminate. injection E as _ _ _ <-. apply kept_nil. intros id.
    apply (ue_vars _ _ _ _ _ (moves_unchanged e _ _ g g1 (live_typed e g HI HC HL) (live_typed e g1 HI HC HL1) M1)); auto.
Qed.

Lemma var_readable g i s : live e g -> nth_error sizes i = Some s -> 0 < s ->
  exists old, get_var_vec e a (first + N.of_nat i) g = (Ok old, g).
Proof.
  intros HL Hi H0. destruct (declared_get _ _ _ _ _ HF Hi) as (r & Hg & _ & Es & Ho).
  rewrite (get_var_vec_eq e a _ g r Haw (live_typed e g HI HC HL) Hg) by lia. eauto.
Qed.
End Stored.

Definition keeps e a first sizes (g g' : gstate) (h : list event) : Prop := kept e a first sizes g g' (stores_of h).

Lemma call_kept e en m tx g rc g' s a first sizes : iterates e -> collision_free e -> engine_wf en -> live e g -> bytes_ok m ->
  decoded dec_transaction m = Some tx -> rt_call e en m g = (Some rc, g') ->
  function_ran (tx_func_name tx) (cr_success rc) (cr_error rc) ->
  runs_as e en (tx_target tx) (tx_func_name tx) (tx_calldata tx) g s ->
  fst (account_load e (tx_target tx) g) = Ok a -> from_byte_sizes first sizes = Some (ac_layout a) ->
  kept e a first sizes g g' (session_stores s).
Proof.
  intros HI HC HE HL Hm Ed E HR Hs A HF.
  assert (Hw : transaction_wf tx) by (eapply decoded_canon; eauto using transaction_canon). destruct Hw as [S1 S2 S3 S4 S5].
  assert (Ha : array_wf 20 (ac_addr a)) by now rewrite (load_addr _ _ _ _ A).
  refine (call_trace e en a (keeps e a first sizes) HI HC HE Ha _ _ _ _ m tx g rc g' s HL Hm Ed A E HR Hs).
  - intros. now apply kept_nil.
  - intros g1 g2 g3 h1 h2. unfold keeps. rewrite stores_of_app. now apply kept_app.
  - intros. now apply kept_now.
  - intros. eapply kept_host; eauto.
Qed.

Lemma spawn_kept e en ev m c g sp rc c' g' : iterates e -> collision_free e -> hash_wf e -> engine_wf en -> live e g -> bytes_ok m ->
  decoded dec_spawn m = Some sp -> spawn e en ev m c g = (Some rc, c', g') ->
  function_ran (sp_ctor sp) (sr_success rc) (sr_error rc) ->
  let new := account_addr e (sp_template sp) in
  exists x g1 s a, account_create e new (sp_name sp) (sp_template sp) 0 0 g = (Ok x, g1)
    /\ fst (account_load e new g1) = Ok a /\ array_wf 20 (ac_addr a)
    /\ runs_as e en new (sp_ctor sp) (sp_calldata sp) g1 s
    /\ (forall id, fst (get_var_vec e a id g1) = fst (get_var_vec e a id g))
    /\ forall first sizes, from_byte_sizes first sizes = Some (ac_layout a) ->
         kept e a first sizes g1 g' (session_stores s).
Proof.
  intros HI HC HH HE HL Hm Ed E HR new.
  destruct (spawn_session e en ev m c g sp rc c' g' HI HC HH HL Hm Ed E HR) as (x & g1 & s & A1 & A2 & _).
  assert (Hsp : spawn_wf sp) by (eapply decoded_canon; eauto using spawn_canon). destruct Hsp as [S1 S2 S3 S4 S5].
  assert (Hnew : array_wf 20 new) by now apply addr_wf.
  destruct (A2) as (a & _ & _ & _ & A3 & _). exists x, g1, s, a.
  assert (Ha : array_wf 20 (ac_addr a)) by now rewrite (load_addr _ _ _ _ A3).
  pose proof (create_live e new (sp_name sp) (sp_template sp) 0 0 g HI HC HL Hnew S3 S2 ltac:(reflexivity) ltac:(reflexivity)) as HL1.
  fold new in A1. rewrite A1 in HL1. cbn [snd] in HL1. pose proof (live_typed e g HI HC HL) as HT.
  assert (X : only e (fun t => t = TImm new \/ t = TMut new) g g1 /\ fst (account_template e new g1) = Ok (sp_template sp)).
  { clear -A1 HC HT HL Hnew S2 S3. unfold account_create, gbind in A1. pose proof (reads_layout e (sp_template sp) g) as RL.
    destruct (template_layout e (sp_template sp) g) as [[lay|?|] g0]; cbn [snd] in RL; subst; try discriminate.
    destruct (write_account_effect e new (sp_name sp) (sp_template sp) 0 0 g) as (g2 & W & _ & O & F); auto; try reflexivity.
    rewrite W in A1. cbn [gret] in A1. injection A1 as _ <-. split; [exact O|].
    specialize (F (proj2 HL)). unfold fields_of in F. now injection F as _ F _ _. }
  destruct X as [O T1].
  split; [exact A1|]. split; [exact A3|]. split; [exact Ha|]. split; [exact A2|]. split.
  { intros id. eapply only_var_vec; eauto using live_typed. intros n [Q|Q]; discriminate Q. }
  intros first sizes HF.
  refine (spawn_trace e en a (keeps e a first sizes) HI HC HE Ha _ _ _ _ ev m c g sp rc c' g' x g1 s HH HL1 Hm Ed E HR A1 A3 T1 A2).
  - intros. now apply kept_nil.
  - intros ? ? ? h1 h2. unfold keeps. rewrite stores_of_app. now apply kept_app.
  - intros. now apply kept_now.
  - intros. eapply kept_host; eauto.
Qed.
