(** Proofs about the payments made during calls. *)
From Coq Require Import List NArith ZArith Bool Lia.
From Coq Require Import ZifyBool ZifyNat ZifyN.
From Verif Require Import Base CodecModel CodecSpec CodecProofs ReceiptModel ReceiptProofs LayoutModel SectionModel.
From Verif Require Import SectionSpec SectionProofs SectionCanon StorageModel StorageSpec StorageProofs GlobalModel GlobalSpec GlobalProofs.
From Verif Require Import RuntimeModel RuntimeSpec RuntimeProofs SupplySpec SupplyProofs ObserveSpec ObserveProofs PaySpec TraceProofs.
Import ListNotations.
Open Scope N_scope.

Definition payment_wf (p : payment) : Prop := let '(src, dst, _) := p in array_wf 20 src /\ array_wf 20 dst.

(** The two agree on all addresses. *)
Definition agree (b b' : bytes -> N) : Prop := forall x, array_wf 20 x -> b x = b' x.

Lemma pay_agree b b' p : payment_wf p -> agree b b' -> agree (pay b p) (pay b' p).
Proof.
  destruct p as [[src dst] n]. intros [Hs Hd] A x Hx. cbn [pay].
  destruct (list_eq_dec N.eq_dec x dst); [now rewrite A|]. destruct (list_eq_dec N.eq_dec x src); now rewrite A.
Qed.
Lemma pay_all_agree ps : Forall payment_wf ps -> forall b b', agree b b' -> agree (pay_all b ps) (pay_all b' ps).
Proof.
  induction 1 as [|p ps Hp _ IH]; intros b b' A; [exact A|]. unfold pay_all. cbn [fold_left]. apply IH. now apply pay_agree.
Qed.
Lemma covered_agree ps : Forall payment_wf ps -> forall b b', agree b b' -> covered b ps -> covered b' ps.
Proof.
  induction 1 as [|[[src dst] n] ps Hp _ IH]; intros b b' A; cbn [covered]; auto. destruct Hp as [Hs Hd].
  intros (C1 & C2 & C3). rewrite <- (A src Hs), <- (A dst Hd). split; auto. split; auto.
  eapply IH; [|exact C3]. apply pay_agree; [now split|exact A].
Qed.
Lemma covered_app ps qs : forall b, covered b (ps ++ qs) <-> covered b ps /\ covered (pay_all b ps) qs.
Proof.
  induction ps as [|[[src dst] n] ps IH]; intros b; cbn [app covered].
  - unfold pay_all. cbn. tauto.
  - rewrite IH. unfold pay_all. cbn [fold_left]. tauto.
Qed.
Lemma payments_of_app h1 h2 : payments_of (h1 ++ h2) = payments_of h1 ++ payments_of h2.
Proof. apply flat_map_app. Qed.

(** From [g] to [g'] the balances changed by the payments [ps]. *)
Record paid (e : env) (g g' : gstate) (ps : list payment) : Prop := mkPaid {
  pd_wf : Forall payment_wf ps;
  pd_covered : covered (balance e g) ps;
  pd_balance : agree (balance e g') (pay_all (balance e g) ps)
}.

Lemma paid_nil e g g' : (forall x, array_wf 20 x -> fst (account_balance e x g') = fst (account_balance e x g)) -> paid e g g' [].
Proof. intros H. split; [constructor|exact Logic.I|]. intros x Hx. unfold balance. cbn. now rewrite H. Qed.
Lemma paid_refl e g : paid e g g [].
Proof. now apply paid_nil. Qed.
Lemma paid_trans e g1 g2 g3 ps qs : paid e g1 g2 ps -> paid e g2 g3 qs -> paid e g1 g3 (ps ++ qs).
Proof.
  intros [A1 A2 A3] [B1 B2 B3]. split.
  - now apply Forall_app.
  - apply covered_app. split; auto. eapply covered_agree; eauto.
  - intros x Hx. rewrite B3 by auto. unfold pay_all at 2. rewrite fold_left_app. now apply pay_all_agree.
Qed.
Lemma same_now_paid e g g' : same_now e g g' -> paid e g g' [].
Proof.
  intros SN. apply paid_nil. intros x _. unfold account_balance. apply bind_read_same. now apply decode_same_now.
Qed.

Lemma host_call_paid e f mem c g v mem' f' g' : iterates e -> collision_free e -> live e g ->
  array_wf 20 (ac_addr (fe_account f)) -> bytes_ok mem ->
  host_call e f mem c g = (Ok (v, mem', f'), g') -> paid e g g' (payments_of [(c, mem)]).
Proof.
  intros HI HC HL Ha Hm E.
  assert (KS : forall id bs, bytes_ok bs ->
     (let^ _ := @sassert unit (can_write f) in let^ _ := sunwrap (set_var_bytes e (fe_account f) id bs) in sret (0, mem, f)) g = (Ok (v, mem', f'), g') ->
     paid e g g' []).
  { intros id bs Hbs. unfold sbind at 1. destruct (can_write f); cbn [sassert]; [|discriminate].
    unfold sret at 1, sbind, sunwrap.
    destruct (set_var_eff e (fe_account f) id bs g HI HC HL Ha Hbs) as [->|(g1 & -> & HL1 & M1)]; [discriminate|].
    intros [= _ _ _ <-]. apply paid_nil. intros x Hx. eapply moves_balance; eauto. }
  assert (KR : writes_nothing c -> paid e g g' []).
  { intros H. pose proof (host_pure e f mem c g H) as R. rewrite E in R. cbn in R. subst. apply paid_refl. }
  destruct c; try (apply KR; exact Logic.I); cbn [host_call] in E; try change (payments_of _) with (@nil payment).
  - unfold set_var_i32 in E. exact (KS _ _ (le_bytes_ok _ _) E).
  - unfold set_var_i64 in E. exact (KS _ _ (le_bytes_ok _ _) E).
  - unfold sbind at 1 in E. destruct (fe_memory f); cbn [sassert] in E; [|discriminate]. unfold sret at 1 in E.
    unfold sbind at 1 in E. destruct (mem_read mem ptr 20) as [w|] eqn:Er; cbn [ssome] in E; [|discriminate]. unfold sret at 1 in E.
    refine (KS _ w _ E). unfold mem_read in Er. destruct (_ <=? _); [|discriminate]. apply Some_inj in Er. subst.
    now apply firstn_ok, skipn_ok.
  - unfold payments_of. cbn [flat_map].
    destruct (N.eqb_spec amount 0) as [H0|H0]; [injection E as _ _ _ <-; apply paid_refl|].
    unfold sbind in E. destruct (fe_memory f); cbn [sassert] in E; unfold sret, spanic in E; [|discriminate].
    assert (MR : forall off w, mem_read mem off 20 = Some w -> array_wf 20 w).
    { intros off w. unfold mem_read. destruct (N.leb_spec (off + 20) (nlen mem)); [|discriminate]. intros Ee. apply Some_inj in Ee. subst.
      split; [rewrite firstn_length, skipn_length; unfold nlen in *; lia|now apply firstn_ok, skipn_ok]. }
    destruct (mem_read mem src 20) as [sa|] eqn:Es; cbn [ssome] in E; unfold sret, spanic in E; [|discriminate].
    destruct (mem_read mem dst 20) as [da|] eqn:Ed; cbn [ssome] in E; unfold sret, spanic in E; [|discriminate].
    destruct (can_read f); cbn [sassert] in E; unfold sret, spanic in E; [|discriminate].
    rewrite transfer_between_eq in E.
    destruct (fst (account_load e sa g)); try discriminate. destruct (fst (account_load e da g)); try discriminate.
    pose proof (MR _ _ Es) as Hsa. pose proof (MR _ _ Ed) as Hda.
    apply mem_read_slice in Es. apply mem_read_slice in Ed. rewrite <- Es, <- Ed. cbn [app].
    destruct (move_coins e sa da amount g) as [r1 g1] eqn:Em.
    destruct (move_coins_cases e sa da amount g r1 g1 HI HC HL Hsa Hda Em) as (HL1 & M1 & K1).
    destruct r1 as [[]|?|]; try discriminate. injection E as _ _ _ <-.
    destruct K1 as (bs & bd & B1 & B2 & L1 & L2 & B3 & B4).
    assert (X1 : balance e g sa = bs) by (unfold balance; now rewrite B1).
    assert (X2 : balance e g da = bd) by (unfold balance; now rewrite B2).
    split.
    + constructor; [now split|constructor].
    + cbn [covered]. rewrite X1, X2. repeat split; auto. lia.
    + intros x Hx. unfold pay_all. cbn [fold_left pay]. rewrite X1, X2.
      destruct (list_eq_dec N.eq_dec x da) as [->|N1]; [unfold balance; now rewrite B3|].
      destruct (list_eq_dec N.eq_dec x sa) as [->|N2]; [unfold balance; now rewrite B4|].
      unfold balance. erewrite moves_balance; [reflexivity|exact M1|auto|]. unfold pair_of. tauto.
Qed.

Definition pays (e : env) (g g' : gstate) (h : list event) : Prop := paid e g g' (payments_of h).
Lemma pays_app e g1 g2 g3 h1 h2 : pays e g1 g2 h1 -> pays e g2 g3 h2 -> pays e g1 g3 (h1 ++ h2).
Proof. unfold pays. rewrite payments_of_app. apply paid_trans. Qed.
Lemma pays_host e a f mem c g v mem' f' g' : iterates e -> collision_free e -> array_wf 20 (ac_addr a) -> fe_account f = a ->
  live e g -> bytes_ok mem -> host_call e f mem c g = (Ok (v, mem', f'), g') -> pays e g g' [(c, mem)].
Proof. intros HI HC Ha <- HL Hm E. eapply host_call_paid; eauto. Qed.

Lemma call_paid e en m tx g rc g' s : iterates e -> collision_free e -> engine_wf en -> live e g -> bytes_ok m ->
  decoded dec_transaction m = Some tx -> rt_call e en m g = (Some rc, g') ->
  function_ran (tx_func_name tx) (cr_success rc) (cr_error rc) ->
  runs_as e en (tx_target tx) (tx_func_name tx) (tx_calldata tx) g s ->
  paid e g g' (session_payments s).
Proof.
  intros HI HC HE HL Hm Ed E HF HR.
  assert (Hw : transaction_wf tx) by (eapply decoded_canon; eauto using transaction_canon). destruct Hw as [S1 S2 S3 S4 S5].
  destruct (HR) as (a & _ & _ & _ & A & _).
  refine (call_trace e en a (pays e) HI HC HE _ (paid_refl e) (pays_app e) _ _ m tx g rc g' s HL Hm Ed A E HF HR).
  - now rewrite (load_addr _ _ _ _ A).
  - intros. now apply same_now_paid.
  - intros. eapply pays_host; eauto. now rewrite (load_addr _ _ _ _ A).
Qed.

Lemma create_balance e a name t g x g1 : iterates e -> collision_free e -> live e g ->
  array_wf 20 a -> string_wf 255 name -> array_wf 20 t -> account_create e a name t 0 0 g = (Ok x, g1) ->
  live e g1 /\ agree (balance e g1) (fun y => if list_eq_dec N.eq_dec y a then 0 else balance e g y)
  /\ fst (account_template e a g1) = Ok t.
Proof.
  intros HI HC HL Ha Hn Ht E.
  pose proof (create_live e a name t 0 0 g HI HC HL Ha Hn Ht ltac:(reflexivity) ltac:(reflexivity)) as HL'. rewrite E in HL'. cbn [snd] in HL'.
  pose proof (live_typed e g HI HC HL) as HT. unfold account_create, gbind in E.
  pose proof (reads_layout e t g) as RL.
  destruct (template_layout e t g) as [[lay|?|] g0]; cbn [snd] in RL; subst g0; try discriminate.
  destruct (write_account_effect e a name t 0 0 g HC HT Ha Hn Ht ltac:(reflexivity) ltac:(reflexivity)) as (g2 & W & _ & O & F).
  rewrite W in E. cbn [gret] in E. injection E as _ <-. split; auto.
  specialize (F (proj2 HL)). unfold fields_of in F. injection F as _ F2 F3 _. split; [|exact F2].
  intros y Hy. destruct (list_eq_dec N.eq_dec y a) as [->|Hne]; [unfold balance; now rewrite F3|].
  unfold balance. erewrite only_balance; [reflexivity|exact O|auto|]. intros [Q|Q]; congruence.
Qed.

Lemma spawn_paid e en ev m c g sp rc c' g' : iterates e -> collision_free e -> hash_wf e -> engine_wf en -> live e g -> bytes_ok m ->
  decoded dec_spawn m = Some sp -> spawn e en ev m c g = (Some rc, c', g') ->
  function_ran (sp_ctor sp) (sr_success rc) (sr_error rc) ->
  let new := account_addr e (sp_template sp) in
  exists a g1, account_create e new (sp_name sp) (sp_template sp) 0 0 g = (Ok a, g1)
    /\ live e g1 /\ agree (balance e g1) (fun y => if list_eq_dec N.eq_dec y new then 0 else balance e g y)
    /\ exists s, runs_as e en new (sp_ctor sp) (sp_calldata sp) g1 s /\ paid e g1 g' (session_payments s).
Proof.
  intros HI HC HH HE HL Hm Ed E HF new.
  destruct (spawn_session e en ev m c g sp rc c' g' HI HC HH HL Hm Ed E HF) as (a & g1 & s & A1 & A2 & _).
  assert (Hsp : spawn_wf sp) by (eapply decoded_canon; eauto using spawn_canon). destruct Hsp as [S1 S2 S3 S4 S5].
  assert (Hnew : array_wf 20 new) by now apply addr_wf.
  exists a, g1. split; [exact A1|].
  destruct (create_balance e new (sp_name sp) (sp_template sp) g a g1) as (HL1 & B1 & T1); auto.
  split; [exact HL1|]. split; [exact B1|]. exists s. split; [exact A2|].
  destruct (A2) as (a2 & _ & _ & _ & A3 & _).
  refine (spawn_trace e en a2 (pays e) HI HC HE _ (paid_refl e) (pays_app e) _ _ ev m c g sp rc c' g' a g1 s HH HL1 Hm Ed E HF A1 A3 T1 A2).
  - now rewrite (load_addr _ _ _ _ A3).
  - intros. now apply same_now_paid.
  - intros. eapply pays_host; eauto. now rewrite (load_addr _ _ _ _ A3).
Qed.

(** Payments as sums. *)
Lemma pay_all_sum x ps : forall b, covered b ps -> pay_all b ps x + paid_by x ps = b x + paid_to x ps.
Proof.
  induction ps as [|[[src dst] n] ps IH]; intros b; cbn [covered paid_by paid_to]; [reflexivity|].
  intros (C1 & C2 & C3). specialize (IH _ C3). unfold pay_all in *. cbn [fold_left].
  remember (fold_left pay ps (pay b (src, dst, n)) x) as z eqn:Ez. clear Ez. cbn [pay] in IH. destruct (list_eq_dec N.eq_dec x dst) as [->|N1].
  - destruct (list_eq_dec N.eq_dec dst src); lia.
  - destruct (list_eq_dec N.eq_dec x src) as [->|N2]; lia.
Qed.
Lemma paid_by_in x ps : paid_by x ps <> 0 -> exists dst n, In (x, dst, n) ps /\ dst <> x.
Proof.
  induction ps as [|[[src dst] n] ps IH]; cbn [paid_by]; [lia|]. intros H.
  destruct (list_eq_dec N.eq_dec x src) as [->|N1].
  - destruct (list_eq_dec N.eq_dec src dst) as [->|N2]; [|exists dst, n; split; [now left|auto]].
    destruct IH as (d & k & I1 & I2); [lia|]. exists d, k. split; [now right|auto].
  - destruct IH as (d & k & I1 & I2); [lia|]. exists d, k. split; [now right|auto].
Qed.
