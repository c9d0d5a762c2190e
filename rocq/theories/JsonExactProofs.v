(** The JSON decoders, for any bytes. *)
From Coq Require Import String List NArith ZArith Arith Bool Lia ZifyBool ZifyNat ZifyN.
From Verif Require Import Base Text SdkModel SdkSpec SdkProofs AbiModel AbiSpec AbiProofs CodecModel CodecSpec CodecProofs
  ReceiptModel ReceiptSpec ReceiptProofs AbiExactSpec AbiExactProofs JsonModel JsonSpec JsonProofs JsonExactSpec.
Import ListNotations.
Open Scope list_scope.
Open Scope N_scope.
Lemma prim_sig_again p s t : prim_sig p = Some s -> spells t s -> sig_to_json t = s.
Proof.
  destruct p; cbn [prim_sig]; intros E; try discriminate E; injection E as <-;
  (destruct t as [t|ts]; [intros [H|H]; [|discriminate H]; cbn [sig_to_json]; rewrite H; now destruct t|intros (js & H & _); discriminate H]).
Qed.
Fixpoint sig_again (v : value) : forall s t, ty_sig_of_sdk_value v = Some s -> spells t s -> sig_to_json t = s.
Proof.
  destruct v as [p|vs].
  - intros s t. apply prim_sig_again.
  - cbn [ty_sig_of_sdk_value]. induction vs as [|v [|w vs] IH].
    + intros s t [= <-]. destruct t as [t|ts]; [intros [H|H]; discriminate H|intros (js & H & _); discriminate H].
    + intros s t. destruct (ty_sig_of_sdk_value v) as [s'|] eqn:E; [|discriminate]. cbn [obind]. intros [= <-].
      destruct t as [t|ts]; [intros [H|H]; discriminate H|]. intros (js & [= <-] & H).
      destruct ts as [|t [|t' ts]]; [contradiction H| |destruct H as [_ []]]. destruct H as [H _]. cbn [sig_to_json map]. now rewrite (sig_again v s' t E H).
    + exact IH.
Qed.
(** What a wire decoder of receipts gives: a success with everything its document needs, or a
    failure with its error. *)
Definition complete (r : receipt) : Prop :=
  match r with
  | RDeploy d => if dr_success d then dr_error d = None /\ dr_addr d <> None else dr_error d <> None
  | RSpawn s => if sr_success s then sr_error s = None /\ sr_account s <> None /\ sr_init_state s <> None /\ sr_returndata s <> None else sr_error s <> None
  | RCall c => if cr_success c then cr_error c = None /\ cr_new_state c <> None /\ cr_returndata c <> None else cr_error c <> None
  end.
Ltac walk H :=
  match type of H with
  | bind ?m _ = Ok _ => let x := fresh "x" in let E := fresh "E" in destruct m as [x|?|] eqn:E; cbn [bind] in H; [|discriminate H..]; try (destruct x); walk H
  | (if ?b then _ else _) = Ok _ => let E := fresh "E" in destruct b eqn:E; [..]; try discriminate H; walk H
  | _ => idtac
  end.
Lemma decoded_complete bs r rest : dec_receipt bs = Ok (r, rest) -> complete r.
Proof.
  unfold dec_receipt. destruct bs as [|b bs]; [discriminate|].
  destruct (b =? TY_DEPLOY); [|destruct (b =? TY_SPAWN); [|destruct (b =? TY_CALL); [|discriminate]]].
  - intros H. apply bind_ok in H. destruct H as ([d r'] & E & H). injection H as <- <-. unfold dec_deploy_receipt in E. walk E; injection E as <- <-; cbn; repeat split; discriminate.
  - intros H. apply bind_ok in H. destruct H as ([d r'] & E & H). injection H as <- <-. unfold dec_spawn_receipt in E. walk E; injection E as <- <-; cbn; repeat split; discriminate.
  - intros H. apply bind_ok in H. destruct H as ([d r'] & E & H). injection H as <- <-. unfold dec_call_receipt in E. walk E; injection E as <- <-; cbn; repeat split; discriminate.
Qed.
Lemma receipt_read r : complete r ->
  let answer := if receipt_success r then
              match r with RDeploy d => deploy_to_json d (receipt_type r) | RSpawn s => spawn_to_json s (receipt_type r) | RCall c => call_to_json c (receipt_type r) end
            else let? e := receipt_error r in decode_error_json (receipt_type r) e (receipt_logs r) in
  (text_logs (logs_of r) -> exists d, answer = Some d /\ shows_read r d) /\ (~ text_logs (logs_of r) -> answer = None).
Proof.
  intros C answer. subst answer. unfold shows_read, shows_with.
  destruct r as [d|s|c]; cbn [complete receipt_success receipt_error receipt_logs receipt_type ReceiptSpec.kind_of kind_name succeeded logs_of] in *.
  - destruct (dr_success d) eqn:Sc.
    + destruct C as [En Ea]. destruct (dr_addr d) as [a|] eqn:A; [|now elim Ea]. split; intros T; unfold deploy_to_json; rewrite En, A; cbn [ensure obind].
      * rewrite logs_shown by exact T. cbn [obind]. eexists. split; [reflexivity|]. split; [at_field|]. split; [at_field|].
        split; [intros a' [= <-]; at_field|]. split; [|at_field]. intros Sg. unfold shown_gas. rewrite <- gas_shown by exact Sg. at_field.
      * now rewrite logs_abort by exact T.
    + destruct (dr_error d) as [e|]; [|now elim C]. cbn [obind]. split; intros T; [|now apply error_none_shown].
      destruct (decode_error_json (txt "deploy-template") e (dr_logs d)) as [j|] eqn:Ej; [|unfold decode_error_json in Ej; rewrite logs_shown in Ej by exact T; discriminate Ej].
      destruct (error_shown _ _ _ _ T Ej) as (A1 & A2 & A3 & A4). exists j. split; [reflexivity|]. split; [exact A1|]. split; [exact A2|]. intros e' [= <-]. exact A3.
  - destruct (sr_success s) eqn:Sc.
    + destruct C as (En & Ea & Es & Er). destruct (sr_account s) as [a|] eqn:A; [|now elim Ea]. destruct (sr_init_state s) as [st|] eqn:St; [|now elim Es].
      destruct (sr_returndata s) as [rd|] eqn:Rd; [|now elim Er]. split; intros T; unfold spawn_to_json; rewrite En, A, St, Rd; cbn [ensure obind].
      * rewrite logs_shown by exact T. cbn [obind]. eexists. split; [reflexivity|]. split; [at_field|]. split; [at_field|].
        split; [intros a' [= <-]; at_field|]. split; [intros a' [= <-]; at_field|]. split; [intros a' [= <-]; at_field|].
        split; [|split; [at_field|at_field]]. intros Sg. unfold shown_gas. rewrite <- gas_shown by exact Sg. at_field.
      * now rewrite logs_abort by exact T.
    + destruct (sr_error s) as [e|]; [|now elim C]. cbn [obind]. split; intros T; [|now apply error_none_shown].
      destruct (decode_error_json (txt "spawn-account") e (sr_logs s)) as [j|] eqn:Ej; [|unfold decode_error_json in Ej; rewrite logs_shown in Ej by exact T; discriminate Ej].
      destruct (error_shown _ _ _ _ T Ej) as (A1 & A2 & A3 & A4). exists j. split; [reflexivity|]. split; [exact A1|]. split; [exact A2|].
      split; [intros e' [= <-]; exact A3|exact A4].
  - destruct (cr_success c) eqn:Sc.
    + destruct C as (En & Es & Er). destruct (cr_new_state c) as [st|] eqn:St; [|now elim Es].
      destruct (cr_returndata c) as [rd|] eqn:Rd; [|now elim Er]. split; intros T; unfold call_to_json; rewrite En, St, Rd; cbn [ensure obind].
      * rewrite logs_shown by exact T. cbn [obind]. eexists. split; [reflexivity|]. split; [at_field|]. split; [at_field|].
        split; [intros a' [= <-]; at_field|]. split; [intros a' [= <-]; at_field|].
        split; [|split; [at_field|at_field]]. intros Sg. unfold shown_gas. rewrite <- gas_shown by exact Sg. at_field.
      * now rewrite logs_abort by exact T.
    + destruct (cr_error c) as [e|]; [|now elim C]. cbn [obind]. split; intros T; [|now apply error_none_shown].
      destruct (decode_error_json (txt "call-account") e (cr_logs c)) as [j|] eqn:Ej; [|unfold decode_error_json in Ej; rewrite logs_shown in Ej by exact T; discriminate Ej].
      destruct (error_shown _ _ _ _ T Ej) as (A1 & A2 & A3 & A4). exists j. split; [reflexivity|]. split; [exact A1|]. split; [exact A2|].
      split; [intros e' [= <-]; exact A3|exact A4].
Qed.
Lemma text_logs_dec l : text_logs l \/ ~ text_logs l.
Proof.
  induction l as [|a l [IH|IH]]; [left; constructor| |right; intros H; apply IH; now inversion H].
  destruct (utf8_valid a) eqn:U; [left; now constructor|right; intros H; inversion H; congruence].
Qed.
Lemma get_bytes j s bs : field "data" j (JStr s) -> spelled s bs -> get_field hex_of_json j "data" = Ok bs.
Proof. intros F S. apply get_field_ok. exists (JStr s). split; [exact F|]. cbn [hex_of_json]. now apply unhex_spelled. Qed.

(* ------------------------------------------------------------------------- *)
(** * Input data *)

Lemma prim_printed p : type_of p <> None -> prim_sig p = Some (show_type p) /\ prim_to_json p = Some (show_prim p).
Proof. destruct p as [| |b|a|n|t z]; cbn [type_of]; intros H; try (now elim H); split; reflexivity. Qed.
Lemma prim_not_printed p : type_of p = None -> prim_sig p = None /\ prim_to_json p = None.
Proof. destruct p; try discriminate; split; reflexivity. Qed.
Lemma array_sig vs : Forall (fun v => exists p, v = VPrim p /\ type_of p <> None) vs -> ty_sig_of_sdk_value (VVec vs) = Some (show_type_of (VVec vs)).
Proof.
  induction 1 as [|v vs (p & -> & Hp) F IH]; [reflexivity|]. destruct vs as [|w vs].
  - cbn [ty_sig_of_sdk_value show_type_of rev app]. rewrite (proj1 (prim_printed p Hp)). reflexivity.
  - change (ty_sig_of_sdk_value (VVec (VPrim p :: w :: vs))) with (ty_sig_of_sdk_value (VVec (w :: vs))). rewrite IH. f_equal.
    cbn [show_type_of]. cbn [rev]. destruct (rev vs ++ [w]) as [|x l] eqn:E; [apply app_eq_nil in E; destruct E as [_ E]; discriminate E|]. reflexivity.
Qed.
Lemma array_data vs : Forall (fun v => exists p, v = VPrim p /\ type_of p <> None) vs -> sdk_value_to_json (VVec vs) = Some (show_value (VVec vs)).
Proof.
  intros F. cbn [sdk_value_to_json show_value].
  assert (X : all_some sdk_value_to_json vs = Some (map (fun v => match v with VPrim p => show_prim p | VVec _ => JNull end) vs)).
  { apply all_some_spec. induction F as [|v vs (p & -> & Hp) F IH]; [constructor|]. cbn [map]. constructor; [exact (proj2 (prim_printed p Hp))|exact IH]. }
  now rewrite X.
Qed.
Lemma value_printed v : printable v -> ty_sig_of_sdk_value v = Some (show_type_of v) /\ sdk_value_to_json v = Some (show_value v).
Proof.
  destruct v as [p|vs]; cbn [printable]; intros H; [exact (prim_printed p H)|]. split; [now apply array_sig|now apply array_data].
Qed.
Lemma value_not_printed v j : flat v -> sdk_value_to_json v = Some j -> printable v.
Proof.
  destruct v as [p|vs]; cbn [flat printable].
  - intros _ H E. apply prim_not_printed in E. cbn in H. rewrite (proj2 E) in H. discriminate H.
  - intros [_ F]. cbn [sdk_value_to_json]. destruct (all_some sdk_value_to_json vs) as [js|] eqn:E; [|discriminate]. intros _. apply all_some_spec in E.
    induction E as [|v j' vs js Hv E IH]; [constructor|]. inversion F as [|? ? (p & -> & _) F']; subst. constructor; [|auto]. exists p. split; [reflexivity|].
    intros T. apply prim_not_printed in T. cbn in Hv. rewrite (proj2 T) in Hv. discriminate Hv.
Qed.
Lemma loop_exact fuel : forall pre tail abi data, bytes_ok tail -> (length tail <= fuel)%nat ->
  (calldata_loop fuel (at_ pre tail) = Some (abi, data) <-> exists vs, input_says tail vs /\ abi = map show_type_of vs /\ data = map show_value vs).
Proof.
  assert (Z : forall pre, calldata_next (at_ pre []) = Some None) by (intros; apply next_end).
  assert (Nil : forall vs, input_says [] vs -> vs = []).
  { intros vs ((bs & F & E) & _). inversion F as [|b v bs' vs' S1 F']; subst; [reflexivity|]. symmetry in E. apply app_eq_nil in E. elim (says_nonempty b v S1). apply E. }
  induction fuel as [|fuel IH]; intros pre tail abi data B L; cbn [calldata_loop].
  - destruct tail; [|cbn in L; lia]. rewrite Z. cbn [obind]. split.
    + intros [= <- <-]. exists []. split; [|auto]. split; [exists []; auto|split; constructor].
    + intros (vs & H & -> & ->). apply Nil in H. subst. reflexivity.
  - destruct tail as [|x tail].
    { rewrite Z. cbn [obind]. split.
      + intros [= <- <-]. exists []. split; [|auto]. split; [exists []; auto|split; constructor].
      + intros (vs & H & -> & ->). apply Nil in H. subst. reflexivity. }
    split.
    + destruct (calldata_next (at_ pre (x :: tail))) as [[[v c]|]|] eqn:D; cbn [obind]; [| |discriminate].
      2:{ exfalso. unfold calldata_next in D. rewrite at_eof in D. destruct (decode_value _) as [[]| |]; discriminate D. }
      destruct (next_read _ _ _ _ B D) as (b & rest & E & S1 & N8 & ->). pose proof (says_nonempty b v S1) as Ne. rewrite E in B, L. apply Forall_app in B. destruct B as [B1 B2].
      destruct (ty_sig_of_sdk_value v) as [s|] eqn:Es; [|discriminate]. cbn [obind]. destruct (sdk_value_to_json v) as [d|] eqn:Ed; [|discriminate]. cbn [obind].
      destruct (calldata_loop fuel _) as [[abi' data']|] eqn:El; [|discriminate]. cbn [obind]. intros [= <- <-].
      assert (Pv : printable v) by (eapply value_not_printed; [eapply says_flat; [exact B1|exact S1]|exact Ed]).
      destruct (value_printed v Pv) as [Es' Ed']. rewrite Es' in Es. injection Es as <-. rewrite Ed' in Ed. injection Ed as <-.
      apply IH in El; [|exact B2|rewrite app_length in L; destruct b; [now elim Ne|cbn in L; lia]]. destruct El as (vs & ((bs & F & ->) & F8 & Fp) & -> & ->).
      exists (v :: vs). split; [|split; reflexivity]. split; [exists (b :: bs); split; [now constructor|exact E]|]. split; now constructor.
    + intros (vs & ((bs & F & E) & F8 & Fp) & -> & ->). inversion F as [|b v bs' vs' S1 F']; subst; [discriminate E|].
      pose proof (says_nonempty b v S1) as Ne. cbn [concat] in E. rewrite E in *. apply Forall_app in B. destruct B as [B1 B2]. inversion F8; subst. inversion Fp; subst.
      rewrite (next_says pre b _ v B1 S1) by assumption. cbn [obind]. destruct (value_printed v ltac:(assumption)) as [-> ->]. cbn [obind].
      rewrite (proj2 (IH (pre ++ b) (concat bs') (map show_type_of vs') (map show_value vs') B2 ltac:(rewrite app_length in L; destruct b; [now elim Ne|cbn in L; lia]))); [reflexivity|].
      exists vs'. split; [|split; reflexivity]. split; [exists bs'; auto|]. split; assumption.
Qed.
Lemma calldata_exact bs d : bytes_ok bs -> (calldata_to_json bs = Ok d <-> exists vs, input_says bs vs /\ d = printed vs).
Proof.
  intros B. unfold calldata_to_json. change (calldata_new bs) with (at_ [] bs). split.
  - destruct (calldata_loop _ _) as [[abi data]|] eqn:E; [|discriminate]. cbn [unwrap bind]. intros [= <-].
    apply loop_exact in E; [|exact B|lia]. destruct E as (vs & H & -> & ->). exists vs. auto.
  - intros (vs & H & ->). rewrite (proj2 (loop_exact (length bs) [] bs (map show_type_of vs) (map show_value vs) B (le_n _))); [reflexivity|eauto].
Qed.
Lemma calldata_never_err bs e : calldata_to_json bs <> Err e.
Proof. unfold calldata_to_json. destruct (calldata_loop _ _) as [[]|]; discriminate. Qed.
(** Which of these documents name types only. *)
Definition sig_of (v : value) : tysig :=
  let prim p := match type_of p with Some t => TPrim t | None => TPrim YBool end in
  match v with
  | VPrim p => prim p
  | VVec vs => match rev vs with VPrim p :: _ => TArr [prim p] | _ => TArr [] end
  end.
Lemma sig_of_spells v : printable v -> v <> VVec [] -> spells (sig_of v) (show_type_of v).
Proof.
  destruct v as [p|vs]; cbn [printable sig_of show_type_of].
  - intros H _. unfold show_type. destruct (type_of p); [now left|now elim H].
  - intros F Ne. destruct (rev vs) as [|w l] eqn:E.
    + elim Ne. f_equal. apply (f_equal (@rev value)) in E. now rewrite rev_involutive in E.
    + assert (I : In w vs) by (apply in_rev; rewrite E; now left). rewrite Forall_forall in F. destruct (F w I) as (p & -> & Hp).
      eexists. split; [reflexivity|]. unfold show_type. destruct (type_of p); [|now elim Hp]. split; [now left|exact Logic.I].
Qed.
Lemma printed_again vs : Forall printable vs -> no_empty_arrays vs -> exists i, input_new (printed vs) = Ok i /\ input_to_json i = printed vs.
Proof.
  intros Fp Fe. exists (mkInput (map sig_of vs) (map show_value vs)).
  assert (Sp : Forall2 spells (map sig_of vs) (map show_type_of vs)).
  { clear -Fp Fe. induction Fp as [|v vs Hp Fp IH]; [constructor|]. inversion Fe; subst. cbn [map]. constructor; [now apply sig_of_spells|auto]. }
  split.
  - apply input_new_ok. split; [|now rewrite !map_length]. exists (map show_type_of vs). split; [eexists; split; reflexivity|]. split; [exact Sp|eexists; split; reflexivity].
  - unfold input_to_json, printed. cbn [in_abi in_data]. do 4 f_equal. clear -Fp Fe. induction Fp as [|v vs Hp Fp IH]; [reflexivity|]. inversion Fe; subst. cbn [map]. f_equal; [|auto].
    eapply sig_again; [apply value_printed; exact Hp|now apply sig_of_spells].
Qed.
Lemma empty_not_read vs : ~ no_empty_arrays vs -> exists e, input_new (printed vs) = Err e.
Proof.
  intros H. destruct (input_new (printed vs)) as [[ts ds]|e|] eqn:E; [exfalso|eauto|exfalso; eapply input_new_no_panic; exact E].
  apply input_new_ok in E. destruct E as [(abi & (f & Ef & A) & Sp & _) _]. injection Ef as <-. change (Some (JArr (map show_type_of vs)) = Some (JArr abi)) in A. injection A as <-. apply H. clear -Sp. revert ts Sp.
  induction vs as [|v vs IH]; intros ts Sp; [constructor|]. inversion Sp as [|t ? ts' ? St Sp']; subst. constructor; [|exact (IH ts' Sp')].
  intros ->. cbn in St. destruct t; [destruct St as [E|E]; discriminate E|destruct St as (js & E & _); discriminate E].
Qed.
Lemma no_empty_dec vs : no_empty_arrays vs \/ ~ no_empty_arrays vs.
Proof.
  induction vs as [|v vs [IH|IH]]; [left; constructor| |right; intros H; apply IH; now inversion H].
  destruct v as [p|[|w l]]; [left; constructor; [discriminate|assumption]|right; intros H; inversion H; congruence|left; constructor; [discriminate|assumption]].
Qed.
Lemma same_emptiness bs vs vs' : bytes_ok bs -> input_says bs vs -> input_says bs vs' -> no_empty_arrays vs -> no_empty_arrays vs'.
Proof.
  intros B H H' Ne. assert (E1 : calldata_to_json bs = Ok (printed vs)) by (apply calldata_exact; eauto).
  assert (E2 : calldata_to_json bs = Ok (printed vs')) by (apply calldata_exact; eauto). rewrite E1 in E2. injection E2 as E2 E3.
  destruct (no_empty_dec vs') as [|Em]; [assumption|]. exfalso. destruct (empty_not_read vs' Em) as (e & X).
  destruct (printed_again vs (proj2 (proj2 H)) Ne) as (i & Y & _). unfold printed in X, Y. rewrite E2, E3 in Y. congruence.
Qed.
