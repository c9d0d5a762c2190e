(** Property C25 for spawns: what a failed one leaves behind. *)
From Coq Require Import String.
From Coq Require Import List NArith ZArith Bool Lia ZifyBool ZifyNat ZifyN.
From Verif Require Import Base Text CodecModel CodecSpec CodecProofs ReceiptModel ReceiptSpec ReceiptProofs.
From Verif Require Import LayoutModel SectionModel SectionSpec SectionProofs StorageModel StorageSpec StorageProofs.
From Verif Require Import GlobalModel GlobalSpec GlobalProofs RuntimeModel RuntimeSpec RuntimeProofs RuntimeProps.
Import ListNotations.
Open Scope list_scope.
Open Scope N_scope.

(** A spawn whose receipt reports failure changes nothing that was committed, no template, no name,
    template or counter of another account and no variable of another account.  If the function is
    not a constructor or the limit is exhausted it changes nothing at all.  Otherwise the account is
    there, with the name and the template of the message, whatever was there before.
    Missing: so the account, and what the constructor wrote to its variables and to balances, stay. *)
Theorem C25_failed_spawn_partial :
  forall e en g c ev m rc c' g',
  iterates e -> collision_free e -> hash_wf e -> engine_wf en -> rt_reachable e en g c -> bytes_ok m ->
  spawn e en ev m c g = (Some rc, c', g') -> sr_success rc = false ->
  exists sp new, decoded dec_spawn m = Some sp /\ new = firstn 20 (env_hash e (sp_template sp))
  /\ (forall k l, get e (gs_storage g') k (Some l) = get e (gs_storage g) k (Some l))
  /\ fst (gs_current_layer g') = fst (gs_current_layer g)
  /\ (forall x, array_wf 20 x -> x <> new ->
        fst (account_name e x g') = fst (account_name e x g)
        /\ fst (account_template e x g') = fst (account_template e x g)
        /\ fst (account_counter e x g') = fst (account_counter e x g))
  /\ (forall a id, array_wf 20 (ac_addr a) -> ac_addr a <> new -> fst (get_var_vec e a id g') = fst (get_var_vec e a id g))
  /\ (forall t, array_wf 20 t -> fst (template_sections e t g') = fst (template_sections e t g))
  /\ (g' = g /\ (sr_error rc = Some OOG \/ sr_error rc = Some (FuncNotCtor (sp_template sp) (sp_ctor sp)))
      \/ fst (account_name e new g') = Ok (sp_name sp) /\ fst (account_template e new g') = Ok (sp_template sp)
         /\ fst (account_counter e new g') = Ok 0).
Proof.
  intros e en g c ev m rc c' g' HI HC HH HE HR Hm E Hf. pose proof (rt_live e en g c HI HC HH HE HR) as HL.
  pose proof (live_typed e g HI HC HL) as HT. unfold spawn in E.
  destruct (decoded dec_spawn m) as [sp|] eqn:Ed; [|discriminate]. exists sp, (account_addr e (sp_template sp)). split; [reflexivity|]. split; [reflexivity|].
  assert (Hsp : spawn_wf sp) by (eapply decoded_canon; eauto using spawn_canon). destruct Hsp as [S1 S2 S3 S4 S5].
  pose proof (reads_sections e (sp_template sp) g) as R1.
  destruct (template_sections e (sp_template sp) g) as [[l|?|] g0]; cbn [snd] in R1; subst; try discriminate.
  unfold ensure_ctor, sbind in E.
  assert (Same : g' = g -> (forall k l, get e (gs_storage g') k (Some l) = get e (gs_storage g) k (Some l))
    /\ fst (gs_current_layer g') = fst (gs_current_layer g)
    /\ (forall x, array_wf 20 x -> x <> account_addr e (sp_template sp) ->
        fst (account_name e x g') = fst (account_name e x g)
        /\ fst (account_template e x g') = fst (account_template e x g)
        /\ fst (account_counter e x g') = fst (account_counter e x g))
    /\ (forall a id, array_wf 20 (ac_addr a) -> ac_addr a <> account_addr e (sp_template sp) -> fst (get_var_vec e a id g') = fst (get_var_vec e a id g))
    /\ (forall t, array_wf 20 t -> fst (template_sections e t g') = fst (template_sections e t g))) by (intros ->; auto 10).
  destruct (is_ctor l (sp_ctor sp)) as [[]|] eqn:Ec; cbn [ssome sret serr spanic] in E; try discriminate E.
  2:{ injection E as <- _ <-. destruct (Same eq_refl) as (A1 & A2 & A3 & A4 & A5). repeat (split; [assumption|]). left. split; [reflexivity|]. right. reflexivity. }
  destruct (check_gas_for_func _ _ _ _ _ _) as [[[n|]|] c1]; try discriminate.
  2:{ injection E as <- _ <-. destruct (Same eq_refl) as (A1 & A2 & A3 & A4 & A5). repeat (split; [assumption|]). left. split; [reflexivity|]. left. reflexivity. }
  clear Same. set (new := account_addr e (sp_template sp)) in *.
  assert (Hnew : array_wf 20 new) by now apply addr_wf.
  assert (HLc : live e (snd (account_create e new (sp_name sp) (sp_template sp) 0 0 g))) by (apply create_live; auto; reflexivity).
  assert (EF : forall a g1, account_create e new (sp_name sp) (sp_template sp) 0 0 g = (Ok a, g1) ->
     only e (fun t => t = TImm new \/ t = TMut new) g g1
     /\ fields_of e new g1 = (Ok (sp_name sp), Ok (sp_template sp), Ok 0, Ok 0)).
  { intros a g1. unfold account_create, gbind. pose proof (reads_layout e (sp_template sp) g) as RL.
    destruct (template_layout e (sp_template sp) g) as [[lay|?|] g0]; cbn [snd] in *; subst; try discriminate.
    destruct (write_account_effect e new (sp_name sp) (sp_template sp) 0 0 g) as (g2 & -> & _ & O & F); auto; try reflexivity.
    cbn [gret]. intros [= _ <-]. split; auto. apply F, HL. }
  destruct (account_create e new _ _ 0 0 g) as [[a|?|] g1]; cbn [snd] in HLc; try discriminate.
  destruct (EF a g1 eq_refl) as [O F]. clear EF. pose proof (live_typed e g1 HI HC HLc) as HT1.
  unfold call_ctor, exec_call in E.
  destruct (exec e en _ g1) as [o g2] eqn:Ex.
  apply exec_effect in Ex; auto; [|apply S5]. cbn [cl_target] in Ex. destruct Ex as (HL2 & [U1 U2 U3 U4] & K).
  assert (X : match o with Err _ => g' = g2 | _ => False end).
  { destruct o as [rc1|[er lg]|]; [| |discriminate].
    - destruct K as (K1 & _). unfold into_spawn_receipt in E. cbn [cr_success] in E. rewrite K1 in E. injection E as <- _ <-. discriminate Hf.
    - cbn in E. injection E as _ _ <-. reflexivity. }
  destruct o as [rc1|er|]; try contradiction. subst g2. destruct K as [K1 K2].
  destruct (U2 new Hnew) as (V1 & V2 & V3). unfold fields_of in F. injection F as F1 F2 F3 F4.
  assert (H1 : (forall k l, get e (gs_storage g1) k (Some l) = get e (gs_storage g) k (Some l)) /\ last_layer (gs_storage g1) = last_layer (gs_storage g)).
  { destruct O as [O1 O2 O3 O4]. split; [intros k z; unfold get, get_by_hash|unfold last_layer]; now rewrite O2, O3. }
  destruct H1 as [H1 H2].
  split; [intros k z; now rewrite K1|]. split.
  { unfold gs_current_layer, gbind. rewrite K2, H2. destruct (last_layer (gs_storage g)) as [[i f]|?|]; cbn [lift]; auto. now destruct (layer_of i). }
  split; [|split; [|split]].
  - intros x Hx Hne. destruct (U2 x Hx) as (W1 & W2 & W3).
    assert (FX : fields_of e x g1 = fields_of e x g) by (eapply only_fields; [exact O|exact Hx| |]; intros [Q|Q]; congruence).
    unfold fields_of in FX. injection FX as Q1 Q2 Q3 Q4. split; [congruence|]. split; congruence.
  - intros b id Hb Hne. rewrite U3; auto. eapply only_var_vec; [exact O|exact HT|exact HT1|exact Hb|]. intros k [Q|Q]; discriminate.
  - intros t Ht. rewrite U4; auto. eapply only_sections; [exact O|exact Ht| |]; intros [Q|Q]; discriminate.
  - right. split; [congruence|]. split; congruence.
Qed.
Print Assumptions C25_failed_spawn_partial.
Example C25_failed_spawn_satisfiable :
  (exists c, rt_reachable rx_env rx_engine (fst rx_deployed2) c) /\ bytes_ok (rx_spawn 2 (txt "bad"))
  /\ option_map sr_success (fst (fst (spawn rx_env rx_engine (rx_envelope None) (rx_spawn 2 (txt "bad")) (snd rx_deployed2) (fst rx_deployed2)))) = Some false.
Proof.
  split; [|split; [apply bytes_okb_ok; vm_compute; reflexivity|vm_compute; reflexivity]].
  exists (snd rx_deployed2). apply rx_run_reachable; [apply rx_start_reachable|].
  constructor; [|constructor]. apply bytes_okb_ok. vm_compute. reflexivity.
Qed.
