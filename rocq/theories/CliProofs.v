(** Proofs about the command line tool. *)
From Coq Require Import String List NArith ZArith Bool Lia.
From Coq Require Import ZifyBool ZifyNat ZifyN.
From Verif Require Import Base Text CodecModel CodecSpec CodecProofs ReceiptModel ReceiptProofs GraphModel GraphSpec ProgramModel ProgramSpec ProgramProofs PricingModel PricingSpec CfgProofs PricingProofs.
From Verif Require Import AbiModel AbiSpec AbiProofs JsonModel JsonSpec JsonProofs JsonProps CliModel CliSpec.
Import ListNotations.
Open Scope string_scope.
Open Scope list_scope.
Open Scope N_scope.

(* ------------------------------------------------------------------------- *)
(** * Transactions *)

Lemma assoc_insert k v m k' : JsonModel.assoc k' (map_insert k v m) = if bytes_eqb k k' then Some v else JsonModel.assoc k' m.
Proof.
  induction m as [|[a b] m IH]; cbn [map_insert JsonModel.assoc]; [reflexivity|].
  destruct (bytes_eqb a k) eqn:Ea.
  - apply bytes_eqb_spec in Ea. subst a. cbn [JsonModel.assoc]. destruct (bytes_eqb k k'); reflexivity.
  - destruct (name_ltb k a); cbn [JsonModel.assoc].
    + destruct (bytes_eqb k k') eqn:Ek; reflexivity.
    + rewrite IH. destruct (bytes_eqb a k') eqn:E; [|reflexivity]. destruct (bytes_eqb k k') eqn:Ek; [|reflexivity].
      apply bytes_eqb_spec in E, Ek. subst. rewrite (proj2 (bytes_eqb_spec k' k') eq_refl) in Ea. discriminate Ea.
Qed.
Lemma zip_bytes ts ds vs vs' : zip_reads ts ds vs -> zip_reads ts ds vs' -> flat_map format vs = flat_map format vs'.
Proof.
  intros A B. pose proof (proj2 (input_encode_spec ts ds _) (ex_intro _ vs (conj A eq_refl))) as X.
  pose proof (proj2 (input_encode_spec ts ds _) (ex_intro _ vs' (conj B eq_refl))) as Y. congruence.
Qed.
Lemma typed_field_ok n j bs : typed_field n j bs -> bytes_ok bs.
Proof.
  intros (v & ts & ds & vs & _ & F & _ & Z & ->). apply (arg_bytes_ok v). right. exists ts, ds, vs. split; [left; exact F|]. auto.
Qed.
Lemma encode_input_spec j key v : encode_input j key = Some v <-> exists bs, typed_field key j bs /\ v = JStr (hex_upper bs).
Proof.
  split.
  - unfold encode_input. destruct j as [| | | | | |fields]; try discriminate. destruct (JsonModel.assoc (txt key) fields) as [input|] eqn:Ek; [|discriminate].
    cbn [obind]. destruct input as [| | | | | |fs]; try discriminate. destruct (JsonModel.assoc (txt "abi") fs) as [a|]; [|discriminate].
    destruct (JsonModel.assoc (txt "data") fs) as [d|]; [|discriminate]. cbn [obind].
    pose proof (C88_encode (JObj fs)) as C. destruct (encode_inputdata (JObj fs)) as [r|e|]; try discriminate.
    destruct C as (ts & ds & vs & F & L & Z & ->). unfold data_doc. cbn [JsonModel.assoc].
    rewrite (proj2 (bytes_eqb_spec _ _) eq_refl). intros [= <-]. exists (flat_map format vs). split; [|reflexivity].
    exists (JObj fs), ts, ds, vs. split; [exists fields; auto|]. auto.
  - intros (bs & (input & ts & ds & vs & (fields & -> & Ek) & F & L & Z & ->) & ->). unfold encode_input. rewrite Ek. cbn [obind].
    pose proof F as (abi & (fs & -> & Ea) & _ & (fs' & [= <-] & Ed)). rewrite Ea, Ed. cbn [obind].
    pose proof (C88_encode (JObj fs)) as C. destruct (encode_inputdata (JObj fs)) as [r|e|].
    + destruct C as (ts' & ds' & vs' & F' & L' & Z' & ->). destruct (input_fields_fun _ _ _ _ _ F F') as [<- <-].
      rewrite (zip_bytes _ _ _ _ Z Z'). reflexivity.
    + exfalso. apply C. exists ts, ds. auto.
    + exfalso. destruct C as (ts' & ds' & F' & L' & N). destruct (input_fields_fun _ _ _ _ _ F F') as [<- <-]. exact (N vs Z).
Qed.
Lemma typed_field_other n j j' bs : (forall v, field n j v <-> field n j' v) -> typed_field n j bs <-> typed_field n j' bs.
Proof.
  intros H. split; intros (v & ts & ds & vs & F & R); exists v, ts, ds, vs; (split; [now apply H|exact R]).
Qed.
Lemma update_key_spec j key j' : update_key j key = Some j' <-> exists fields bs, j = JObj fields /\ typed_field key j bs /\
  j' = JObj (map_insert (txt key) (JStr (hex_upper bs)) fields).
Proof.
  unfold update_key. split.
  - destruct (encode_input j key) as [v|] eqn:E; [|discriminate]. cbn [obind]. apply encode_input_spec in E. destruct E as (bs & T & ->).
    destruct j as [| | | | | |fields]; try discriminate. intros [= <-]. exists fields, bs. auto.
  - intros (fields & bs & -> & T & ->). rewrite (proj2 (encode_input_spec _ _ _) (ex_intro _ bs (conj T eq_refl))). reflexivity.
Qed.
Lemma update_key_some fields key bs : typed_field key (JObj fields) bs ->
  update_key (JObj fields) key = Some (JObj (map_insert (txt key) (JStr (hex_upper bs)) fields)).
Proof. intros T. apply update_key_spec. eauto. Qed.
Lemma field_insert k x fields n v : field n (JObj (map_insert (txt k) x fields)) v <->
  if bytes_eqb (txt k) (txt n) then v = x else field n (JObj fields) v.
Proof.
  unfold field. split.
  - intros (f & [= <-] & A). rewrite assoc_insert in A. destruct (bytes_eqb (txt k) (txt n)); [congruence|]. eauto.
  - intros H. eexists. split; [reflexivity|]. rewrite assoc_insert. destruct (bytes_eqb (txt k) (txt n)); [congruence|].
    destruct H as (f & [= <-] & A). exact A.
Qed.
Lemma arg_of_hex bs bs' : bytes_ok bs -> arg_bytes (JStr (hex_upper bs)) bs' <-> bs' = bs.
Proof.
  intros B. split.
  - intros [(s & [= <-] & S)|(ts & ds & vs & [(abi & (f & F & _) & _)|(abi & F & _)] & _)]; try discriminate F.
    apply unhex_spelled in S. rewrite unhex_hex_upper in S by exact B. congruence.
  - intros ->. left. eexists. split; [reflexivity|]. now apply spelled_upper.
Qed.
Lemma typed_field_fun n j bs bs' : typed_field n j bs -> typed_field n j bs' -> bs = bs'.
Proof.
  intros (v & ts & ds & vs & F & I1 & _ & Z & ->) (v' & ts' & ds' & vs' & F' & I1' & _ & Z' & ->).
  pose proof (field_fun _ _ _ _ F F') as <-. destruct (input_fields_fun _ _ _ _ _ I1 I1') as [<- <-]. exact (zip_bytes _ _ _ _ Z Z').
Qed.
Lemma encode_call_file j bs : encode_tx TxCall j = Some bs <-> exists t, call_file j t /\ enc_transaction t = Some bs.
Proof.
  assert (X : forall fields v c, let j' := JObj (map_insert (txt "calldata") (JStr (hex_upper c)) (map_insert (txt "verifydata") (JStr (hex_upper v)) fields)) in
    typed_field "verifydata" (JObj fields) v -> typed_field "calldata" (JObj fields) c ->
    forall t, call_doc j' t <-> call_file (JObj fields) t).
  { intros fields v c j' Tv Tc t. unfold call_doc, call_file. subst j'. pose proof (typed_field_ok _ _ _ Tv) as Bv. pose proof (typed_field_ok _ _ _ Tc) as Bc.
    set (j' := JObj _).
    assert (O : forall n, bytes_eqb (txt "calldata") (txt n) = false -> bytes_eqb (txt "verifydata") (txt n) = false -> forall x, field n j' x <-> field n (JObj fields) x).
    { intros n E1 E2 x. unfold j'. rewrite field_insert, E1. rewrite field_insert, E2. tauto. }
    assert (V : forall x, field "verifydata" j' x <-> x = JStr (hex_upper v)).
    { intros x. unfold j'. rewrite field_insert. change (bytes_eqb (txt "calldata") (txt "verifydata")) with false. cbv iota. rewrite field_insert. change (bytes_eqb (txt "verifydata") (txt "verifydata")) with true. tauto. }
    assert (Cd : forall x, field "calldata" j' x <-> x = JStr (hex_upper c)).
    { intros x. unfold j'. rewrite field_insert. change (bytes_eqb (txt "calldata") (txt "calldata")) with true. tauto. }
    clearbody j'. rewrite (O "version" eq_refl eq_refl), (O "func_name" eq_refl eq_refl).
    split.
    - intros (A & B & (s & C & C') & D & (x & E' & E) & (y & F' & F)). apply V in E'. apply Cd in F'. subst x y. apply arg_of_hex in E, F; try assumption. rewrite E, F.
      split; [assumption|]. split; [assumption|]. split; [exists s; split; [now apply (O "target" eq_refl eq_refl)|assumption]|]. auto.
    - intros (A & B & (s & C & C') & D & E & F). rewrite (typed_field_fun _ _ _ _ E Tv), (typed_field_fun _ _ _ _ F Tc).
      split; [assumption|]. split; [assumption|]. split; [exists s; split; [now apply (O "target" eq_refl eq_refl)|assumption]|]. split; [assumption|].
      split; (eexists; split; [first [apply V|apply Cd]; reflexivity|now apply arg_of_hex]). }
  unfold encode_tx. split.
  - destruct (encode_inputs j ["verifydata"; "calldata"]) as [j'|] eqn:E; [|discriminate]. cbn [obind].
    destruct j as [| | | | | |fields]; try discriminate E. cbn [encode_inputs] in E.
    destruct (update_key (JObj fields) "verifydata") as [j1|] eqn:E1; [|discriminate E]. cbn [obind] in E.
    apply update_key_spec in E1. destruct E1 as (f & v & [= <-] & Tv & ->).
    destruct (update_key _ "calldata") as [j2|] eqn:E2; [|discriminate E]. cbn [obind] in E. apply update_key_spec in E2.
    destruct E2 as (f & c & [= <-] & Tc & ->). injection E as <-.
    assert (Tc' : typed_field "calldata" (JObj fields) c). { eapply typed_field_other; [|exact Tc]. intros x. rewrite field_insert. cbn -[field]. tauto. }
    destruct (encode_call_raw _) as [r|e|] eqn:En; try discriminate. intros [= <-]. apply encode_call_spec in En. destruct En as (t & D & En).
    exists t. split; [|exact En]. eapply X; eauto.
  - intros (t & D & En). pose proof D as (_ & _ & _ & _ & Tv & Tc). assert (exists fields, j = JObj fields) as [fields ->].
    { destruct Tv as (? & ? & ? & ? & (f & -> & _) & _). eauto. }
    cbn [encode_inputs]. rewrite (update_key_some fields "verifydata" _ Tv). cbn [obind].
    rewrite (update_key_some _ "calldata" (tx_calldata t)).
    2:{ eapply typed_field_other; [|exact Tc]. intros x. rewrite field_insert. cbn -[field]. tauto. }
    cbn [obind]. rewrite (proj2 (encode_call_spec _ bs)); [reflexivity|]. exists t. split; [|exact En]. eapply X; eauto.
Qed.
Lemma encode_spawn_file j bs : encode_tx TxSpawn j = Some bs <-> exists t, spawn_file j t /\ enc_spawn t = Some bs.
Proof.
  assert (X : forall fields c, let j' := JObj (map_insert (txt "calldata") (JStr (hex_upper c)) fields) in
    typed_field "calldata" (JObj fields) c -> forall t, spawn_doc j' t <-> spawn_file (JObj fields) t).
  { intros fields c j' Tc t. unfold spawn_doc, spawn_file. subst j'. pose proof (typed_field_ok _ _ _ Tc) as Bc.
    set (j' := JObj _).
    assert (O : forall n, bytes_eqb (txt "calldata") (txt n) = false -> forall x, field n j' x <-> field n (JObj fields) x).
    { intros n E1 x. unfold j'. rewrite field_insert, E1. tauto. }
    assert (Cd : forall x, field "calldata" j' x <-> x = JStr (hex_upper c)).
    { intros x. unfold j'. rewrite field_insert. change (bytes_eqb (txt "calldata") (txt "calldata")) with true. tauto. }
    clearbody j'. rewrite (O "version" eq_refl), (O "name" eq_refl), (O "ctor_name" eq_refl).
    split.
    - intros (A & B & (s & C & C') & D & D' & (y & F' & F)). apply Cd in F'. subst y. apply arg_of_hex in F; try assumption. rewrite F.
      split; [assumption|]. split; [assumption|]. split; [exists s; split; [now apply (O "template" eq_refl)|assumption]|]. auto.
    - intros (A & B & (s & C & C') & D & D' & F). rewrite (typed_field_fun _ _ _ _ F Tc).
      split; [assumption|]. split; [assumption|]. split; [exists s; split; [now apply (O "template" eq_refl)|assumption]|]. split; [assumption|]. split; [assumption|].
      eexists; split; [apply Cd; reflexivity|now apply arg_of_hex]. }
  unfold encode_tx. split.
  - destruct (encode_inputs j ["calldata"]) as [j'|] eqn:E; [|discriminate]. cbn [obind].
    destruct j as [| | | | | |fields]; try discriminate E. cbn [encode_inputs] in E.
    destruct (update_key (JObj fields) "calldata") as [j2|] eqn:E2; [|discriminate E]. cbn [obind] in E. apply update_key_spec in E2.
    destruct E2 as (f & c & [= <-] & Tc & ->). injection E as <-.
    destruct (encode_spawn _) as [r|e|] eqn:En; try discriminate. intros [= <-]. apply encode_spawn_spec in En. destruct En as (t & D & En).
    exists t. split; [|exact En]. eapply X; eauto.
  - intros (t & D & En). pose proof D as (_ & _ & _ & _ & _ & Tc). assert (exists fields, j = JObj fields) as [fields ->].
    { destruct Tc as (? & ? & ? & ? & (f & -> & _) & _). eauto. }
    cbn [encode_inputs]. rewrite (update_key_some fields "calldata" _ Tc). cbn [obind].
    rewrite (proj2 (encode_spawn_spec _ bs)); [reflexivity|]. exists t. split; [|exact En]. eapply X; eauto.
Qed.
Lemma enc_input_short d bs : enc_input d = Some bs -> nlen d <= 255.
Proof. unfold enc_input, enc_data. change (256 ^ N.of_nat 1) with 256. destruct (N.ltb_spec (nlen d) 256) as [L|]; [|discriminate]. intros _. lia. Qed.
Lemma enc_string_short d bs : enc_string d = Some bs -> nlen d <= 255.
Proof. unfold enc_string. destruct (N.ltb_spec (nlen d) 256) as [L|]; [|discriminate]. intros _. lia. Qed.
Lemma call_file_wf j t : unicode j -> call_file j t -> short_call t -> transaction_wf t.
Proof.
  intros U (_ & L & (s & _ & Sp & L2) & F & Tv & Tc) (S1 & S2 & S3). destruct (U _ _ F) as [Bf Uf]. constructor; auto.
  - split; [exact L2|]. eapply spelled_ok; exact Sp.
  - split; [|exact Uf]. split; assumption.
  - split; [exact S2|]. eapply typed_field_ok; exact Tv.
  - split; [exact S3|]. eapply typed_field_ok; exact Tc.
Qed.
Lemma spawn_file_wf j t : unicode j -> spawn_file j t -> short_spawn t -> spawn_wf t.
Proof.
  intros U (_ & L & (s & _ & Sp & L2) & F & F' & Tc) (S1 & S2 & S3). destruct (U _ _ F) as [Bf Uf]. destruct (U _ _ F') as [Bf' Uf']. constructor; auto.
  - split; [exact L2|]. eapply spelled_ok; exact Sp.
  - split; [|exact Uf]. split; assumption.
  - split; [|exact Uf']. split; assumption.
  - split; [exact S3|]. eapply typed_field_ok; exact Tc.
Qed.
Lemma enc_transaction_short t bs : enc_transaction t = Some bs -> short_call t.
Proof.
  unfold enc_transaction. destruct (enc_u16 _); [|discriminate]. destruct (enc_array _); [|discriminate]. cbn [obind].
  destruct (enc_string (tx_func_name t)) eqn:E1; [|discriminate]. destruct (enc_input (tx_verifydata t)) eqn:E2; [|discriminate].
  destruct (enc_input (tx_calldata t)) eqn:E3; [|discriminate]. intros _. split; [eapply enc_string_short; eauto|]. split; eapply enc_input_short; eauto.
Qed.
Lemma enc_spawn_short t bs : enc_spawn t = Some bs -> short_spawn t.
Proof.
  unfold enc_spawn. destruct (enc_u16 _); [|discriminate]. destruct (enc_array _); [|discriminate]. cbn [obind].
  destruct (enc_string (sp_name t)) eqn:E1; [|discriminate]. destruct (enc_string (sp_ctor t)) eqn:E2; [|discriminate].
  destruct (enc_input (sp_calldata t)) eqn:E3; [|discriminate]. intros _. split; [eapply enc_string_short; eauto|]. split; [eapply enc_string_short; eauto|eapply enc_input_short; eauto].
Qed.
Lemma encode_message ty j bs : unicode j -> encode_tx ty j = Some bs <-> message ty j bs.
Proof.
  intros U. unfold message. destruct ty.
  - rewrite encode_spawn_file. split.
    + intros (t & D & E). pose proof (spawn_file_wf j t U D (enc_spawn_short t bs E)) as W.
      split; [eapply enc_spawn_ok; eauto|]. exists t. split; [exact D|]. destruct (spawn_rt t W) as (bs' & E' & R). rewrite E in E'. injection E' as <-.
      specialize (R []). now rewrite app_nil_r in R.
    + intros (B & t & D & E). destruct (spawn_canon bs t [] B E) as (_ & p & Ep & ->). rewrite app_nil_r. eauto.
  - rewrite encode_call_file. split.
    + intros (t & D & E). pose proof (call_file_wf j t U D (enc_transaction_short t bs E)) as W.
      split; [eapply enc_transaction_ok; eauto|]. exists t. split; [exact D|]. destruct (transaction_rt t W) as (bs' & E' & R). rewrite E in E'. injection E' as <-.
      specialize (R []). now rewrite app_nil_r in R.
    + intros (B & t & D & E). destruct (transaction_canon bs t [] B E) as (_ & p & Ep & ->). rewrite app_nil_r. eauto.
Qed.
Lemma described_message_call j t : unicode j -> call_file j t -> short_call t -> exists bs, message TxCall j bs.
Proof.
  intros U D S. destruct (transaction_rt t (call_file_wf j t U D S)) as (bs & E & _). exists bs. apply encode_message; [exact U|]. apply encode_call_file. eauto.
Qed.
Lemma described_message_spawn j t : unicode j -> spawn_file j t -> short_spawn t -> exists bs, message TxSpawn j bs.
Proof.
  intros U D S. destruct (spawn_rt t (spawn_file_wf j t U D S)) as (bs & E & _). exists bs. apply encode_message; [exact U|]. apply encode_spawn_file. eauto.
Qed.

(* ------------------------------------------------------------------------- *)
(** * Prices *)

Definition scoped (i : instr) : bool := match i with Block | If => true | _ => false end.
Lemma cfg_ops_depth k : forall b b', binv b -> cfg_ops k b = Some b' -> cb_depth b' + count closes k = cb_depth b + count scoped k.
Proof.
  induction k as [|i k IH]; intros b b' B H; cbn [cfg_ops count] in *; [injection H as <-; lia|].
  destruct (cfg_op i b) as [b1|] eqn:X; [|discriminate]. cbn [obind] in H. destruct (cfg_op_inv i b b1 B X) as [B1 _].
  pose proof (cfg_op_depth i b b1 B X) as D. specialize (IH b1 b' B1 H).
  assert (P : i = End -> 0 < cb_depth b). { intros ->. cbn [cfg_op] in X. unfold exit_scope in X. destruct (N.eqb_spec (cb_depth b) 0); [discriminate X|lia]. }
  destruct i; cbn [depth_after closes scoped] in *; try (specialize (P eq_refl)); lia.
Qed.
Lemma count_split k : count opens k = count scoped k + count (fun i => match i with Loop => true | _ => false end) k.
Proof. induction k as [|i k IH]; [reflexivity|]. cbn [count]. rewrite IH. destruct i; cbn [opens scoped]; lia. Qed.
Lemma count_none f k i : count f k = 0 -> In i k -> f i = false.
Proof.
  induction k as [|j k IH]; intros C I0; [destruct I0|]; cbn [count] in C; destruct I0 as [->|I1].
  - destruct (f i); [lia|reflexivity].
  - apply IH; [|exact I1]. destruct (f j); lia.
Qed.
Lemma cfg_ops_call t k : forall b b', binv b -> cfg_ops k b = Some b' -> In (Call t) k -> exists x, In (Call t) (ops_of b' x).
Proof.
  induction k as [|i k IH]; intros b b' B H I0; [destruct I0|]; cbn [cfg_ops] in H; destruct I0 as [->|I1].
  - destruct (cfg_op (Call t) b) as [b1|] eqn:X; [|discriminate]. cbn [obind] in H. destruct (cfg_op_inv _ b b1 B X) as [B1 _].
    cbn [cfg_op] in X. injection X as <-. destruct (cfg_ops_inv k _ b' B1 H) as [_ G]. exists (current b).
    destruct (gr_ops _ _ G (current b)) as [s ->]. apply in_or_app. left. rewrite append_ops by apply (bi_size b B). rewrite N.eqb_refl. apply in_or_app. right. now left.
  - destruct (cfg_op i b) as [b1|] eqn:X; [|discriminate]. cbn [obind] in H. destruct (cfg_op_inv _ b b1 B X) as [B1 _]. eapply IH; eauto.
Qed.
Lemma sum_prices_small p r fp ops : forall acc v i, sum_prices p r fp acc ops = Some v -> In i ops -> exists x, resolve_op p r fp i = Some x /\ x <= u64_max.
Proof.
  induction ops as [|j ops IH]; intros acc v i H I0; [destruct I0|]; cbn [sum_prices] in H; destruct I0 as [->|I1].
  - destruct (resolve_op p r fp i) as [x|]; [|discriminate]. cbn [obind] in H. exists x. split; [reflexivity|]. unfold add_usize in H.
    destruct (N.leb_spec (acc + x) u64_max); [lia|discriminate].
  - destruct (resolve_op p r fp j) as [x|]; [|discriminate]. cbn [obind] in H. destruct (add_usize acc x) as [a|]; [|discriminate]. eapply IH; eauto.
Qed.
Lemma weigh_small p r fp l : forall n g g' x i, weigh_blocks p r fp n l g = Some g' -> In x l -> In i (bl_ops x) -> exists v, resolve_op p r fp i = Some v /\ v <= u64_max.
Proof.
  induction l as [|y l IH]; intros n g g' x i H I0 I2; [destruct I0|]; cbn [weigh_blocks] in H; destruct I0 as [->|I1].
  - cbv zeta in H. destruct (sum_prices p r fp 0 (bl_ops x)) as [v|] eqn:E; [|discriminate]. eapply sum_prices_small; eauto.
  - cbv zeta in H. destruct (sum_prices p r fp 0 (bl_ops y)) as [v|] eqn:E; [|discriminate]. cbn [obind] in H. eapply IH; eauto.
Qed.
Lemma compute_calls p r fp f v body t : compute_func_price p r fp f = Some v -> get_func p f = Some body -> In (Call t) body ->
  exists x, resolve_op p r fp (Call t) = Some x /\ x <= u64_max.
Proof.
  intros H G I1. unfold compute_func_price in H. rewrite G in H. cbn [obind] in H. destruct (build_func_cfg body) as [bl|] eqn:B; [|discriminate]. cbn [obind] in H.
  destruct (build_weighted_graph p r fp bl) as [g|] eqn:W; [|discriminate]. unfold build_weighted_graph in W.
  destruct (weigh_blocks p r fp 0 bl []) as [g0|] eqn:X; [|discriminate]. unfold build_func_cfg in B.
  destruct (cfg_ops body cfg_new) as [b|] eqn:C; [|discriminate]. cbn [obind] in B. destruct (cfg_ops_call t body _ _ cfg_new_inv C I1) as [n In1].
  assert (bl = cb_blocks b) as -> by (destruct (cb_jumps b); [|discriminate B]; destruct (cb_depth b =? 0); congruence).
  unfold ops_of, ops_in in In1. destruct (nth_error (cb_blocks b) (N.to_nat n)) as [x|] eqn:En; [|destruct In1].
  apply nth_error_In in En. eapply weigh_small; eauto.
Qed.
Lemma example_known im : import_price example_resolver im <= u64_max -> has_price im.
Proof.
  destruct im as [ns name]. cbn [import_price example_resolver fst snd]. destruct (bytes_eqb ns (txt "svm")) eqn:E.
  2:{ intros H. exfalso. unfold no_price in H. lia. }
  apply bytes_eqb_spec in E. subst ns.
  repeat (cbn [example_import]; match goal with |- context [if bytes_eqb ?a name then _ else _] => destruct (bytes_eqb a name) eqn:?E0 end;
    [apply bytes_eqb_spec in E0; intros _; subst name; eexists; split; [|reflexivity]; cbn [priced_imports In]; tauto|clear E0]).
  cbn [example_import]. unfold no_price. lia.
Qed.
Lemma example_same_import name l : example_import name l <= u64_max -> v0_import name l = example_import name l.
Proof.
  induction l as [|[n q] l IH]; cbn [example_import v0_import]; [unfold no_price; lia|]. destruct (bytes_eqb n name); auto.
Qed.
Lemma example_same_price im : import_price example_resolver im <= u64_max -> import_price v0_resolver im = import_price example_resolver im.
Proof.
  destruct im as [ns name]. unfold example_resolver, v0_resolver. cbn [import_price fst snd]. destruct (bytes_eqb ns (txt "svm")).
  - apply example_same_import.
  - unfold no_price. lia.
Qed.
Lemma resolve_same p fp i x : resolve_op p example_resolver fp i = Some x -> x <= u64_max -> resolve_op p v0_resolver fp i = Some x.
Proof.
  destruct i; cbn [resolve_op]; try (intros [= <-]; reflexivity). destruct (nth_error (p_imports p) _) as [im|]; [|auto].
  intros [= <-] L. now rewrite (example_same_price im L).
Qed.
Lemma sum_same p fp ops : forall acc v, sum_prices p example_resolver fp acc ops = Some v -> sum_prices p v0_resolver fp acc ops = Some v.
Proof.
  induction ops as [|i ops IH]; intros acc v H; cbn [sum_prices] in *; [exact H|].
  destruct (resolve_op p example_resolver fp i) as [x|] eqn:E; [|discriminate]. cbn [obind] in H.
  destruct (add_usize acc x) as [a|] eqn:A; [|discriminate]. cbn [obind] in H. pose proof A as A'. unfold add_usize in A'.
  destruct (N.leb_spec (acc + x) u64_max); [|discriminate]. rewrite (resolve_same p fp i x E) by lia. cbn [obind]. rewrite A. cbn [obind]. auto.
Qed.
Lemma weigh_same p fp l : forall n g g', weigh_blocks p example_resolver fp n l g = Some g' -> weigh_blocks p v0_resolver fp n l g = Some g'.
Proof.
  induction l as [|x l IH]; intros n g g' H; cbn [weigh_blocks] in *; [exact H|]. cbv zeta in *.
  destruct (sum_prices p example_resolver fp 0 (bl_ops x)) as [v|] eqn:E; [|discriminate]. cbn [obind] in H. rewrite (sum_same _ _ _ _ _ E). cbn [obind]. auto.
Qed.
Lemma compute_same p fp f v : compute_func_price p example_resolver fp f = Some v -> compute_func_price p v0_resolver fp f = Some v.
Proof.
  unfold compute_func_price. destruct (get_func p f) as [body|]; [|discriminate]. cbn [obind]. destruct (build_func_cfg body) as [bl|]; [|discriminate]. cbn [obind].
  unfold build_weighted_graph. destruct (weigh_blocks p example_resolver fp 0 bl []) as [g|] eqn:E; [|discriminate]. cbn [obind].
  rewrite (weigh_same _ _ _ _ _ _ E). cbn [obind]. auto.
Qed.
Lemma functions_same p l : forall fp pr, price_functions p example_resolver l fp = Some pr -> price_functions p v0_resolver l fp = Some pr.
Proof.
  induction l as [|f l IH]; intros fp pr H; cbn [price_functions] in *; [exact H|].
  destruct (compute_func_price p example_resolver fp f) as [v|] eqn:E; [|discriminate]. cbn [obind] in H. rewrite (compute_same _ _ _ _ E). cbn [obind]. auto.
Qed.
Lemma program_same p pr : price_program p example_resolver = Some pr -> price_program p v0_resolver = Some pr.
Proof.
  unfold price_program. destruct (calls_functions p (p_functions p) []) as [g|]; [|discriminate]. cbn [obind].
  destruct (topological_sort g) as [s|]; [|discriminate]. cbn [obind]. apply functions_same.
Qed.

(** What the lines show. *)
Lemma price_lines_spec fp : forall n i l, price_lines fp i n = Some l ->
  map fst l = map (fun k => i + N.of_nat k) (seq 0 n) /\ forall f v, In (f, v) l -> ProgramModel.assoc f fp = Some v.
Proof.
  induction n as [|n IH]; intros i l H; cbn [price_lines] in H; [injection H as <-; split; [reflexivity|intros f v []]|].
  destruct (ProgramModel.assoc i fp) as [q|] eqn:E; [|discriminate]. cbn [obind] in H. destruct (price_lines fp (i + 1) n) as [l'|] eqn:El; [|discriminate].
  injection H as <-. destruct (IH _ _ El) as [A B]. split.
  - cbn [map fst seq]. rewrite A. f_equal; [lia|]. rewrite <- (seq_shift n 0), map_map. apply map_ext. intros k. lia.
  - intros f v [[= <- <-]|I1]; auto.
Qed.
Lemma price_lines_some fp n : forall i, (forall k, i <= k < i + N.of_nat n -> exists v, ProgramModel.assoc k fp = Some v) -> exists l, price_lines fp i n = Some l.
Proof.
  induction n as [|n IH]; intros i H; cbn [price_lines]; [eauto|]. destruct (H i) as [v ->]; [lia|]. cbn [obind].
  destruct (IH (i + 1)) as [l ->]; [|cbn [obind]; eauto]. intros k K. apply H. lia.
Qed.
Lemma assoc_key {A} (l : list (N * A)) k : (exists v, ProgramModel.assoc k l = Some v) <-> In k (map fst l).
Proof.
  induction l as [|[a v] l IH]; cbn [ProgramModel.assoc map fst In]; [split; [intros [v H]; discriminate H|intros []]|].
  destruct (N.eqb_spec a k) as [->|N0]; [split; eauto|]. rewrite IH. split; [auto|]. intros [E|E]; [contradiction|exact E].
Qed.
Lemma min_key_spec fp : match min_key fp with Some m => In m (map fst fp) /\ forall k, In k (map fst fp) -> m <= k | None => fp = [] end.
Proof.
  induction fp as [|[k v] fp IH]; cbn [min_key]; [reflexivity|]. destruct (min_key fp) as [m|].
  - destruct IH as [A B]. cbn [map fst]. split.
    + destruct (N.min_spec k m) as [[_ ->]|[_ ->]]; [now left|now right].
    + intros x [<-|X]; [lia|]. specialize (B x X). lia.
  - subst fp. cbn. split; [now left|]. intros x [<-|[]]. lia.
Qed.
Lemma max_key_spec fp : match max_key fp with Some m => In m (map fst fp) /\ forall k, In k (map fst fp) -> k <= m | None => fp = [] end.
Proof.
  induction fp as [|[k v] fp IH]; cbn [max_key]; [reflexivity|]. destruct (max_key fp) as [m|].
  - destruct IH as [A B]. cbn [map fst]. split.
    + destruct (N.max_spec k m) as [[_ ->]|[_ ->]]; [now right|now left].
    + intros x [<-|X]; [lia|]. specialize (B x X). lia.
  - subst fp. cbn. split; [now left|]. intros x [<-|[]]. lia.
Qed.
(** Exactly the functions of the program have a price. *)
Lemma priced_keys p r pr : price_program p r = Some pr -> forall f, In f (map fst pr) <-> defined p f.
Proof.
  intros H f. destruct (price_program_spec p r pr H) as (_ & A & B). rewrite <- assoc_key. split.
  - intros [v E]. destruct (A f v E) as [D|C]; [exact D|]. destruct (B f (or_intror C)) as (fp & x & _ & Cf & _).
    unfold compute_func_price in Cf. destruct (get_func p f) as [body|] eqn:G; [|discriminate]. unfold get_func in G.
    unfold defined. apply assoc_key. eauto.
  - intros D. destruct (B f (or_introl D)) as (_ & v & _ & _ & E). eauto.
Qed.
Lemma show_prices_spec p r pr m v : program_new m v = Ok p -> price_program p r = Some pr ->
  match show_prices pr with
  | None => p_functions p = []
  | Some l => p_functions p <> [] /\ map fst l = map fst (p_functions p) /\ forall f x, In (f, x) l -> ProgramModel.assoc f pr = Some x
  end.
Proof.
  intros New Pr. pose proof (priced_keys p r pr Pr) as K. destruct (program_new_inv _ _ _ New) as (md & code & _ & _ & _ & _ & Fs & _).
  set (n0 := nlen (p_imports p)) in *.
  assert (D : forall f, defined p f <-> n0 <= f < n0 + nlen code).
  { intros f. unfold defined. rewrite Fs, in_map_iff. unfold nlen. split.
    - intros ([g b] & <- & X). apply number_functions_spec in X. destruct X as (n & X & ->). cbn [fst].
      assert (n < List.length code)%nat by (apply nth_error_Some; congruence). lia.
    - intros X. destruct (nth_error code (N.to_nat (f - n0))) as [b|] eqn:E; [|apply nth_error_None in E; lia].
      exists (f, b). split; [reflexivity|]. apply number_functions_spec. exists (N.to_nat (f - n0)). split; [exact E|lia]. }
  assert (Keys : map fst (p_functions p) = map (fun k => n0 + N.of_nat k) (seq 0 (List.length code))).
  { rewrite Fs. clearbody n0. clear. revert n0. induction code as [|c code IH]; intros n0; [reflexivity|]. cbn [number_functions map fst List.length seq].
    rewrite IH. f_equal; [lia|]. rewrite <- seq_shift, map_map. apply map_ext. intros k. lia. }
  unfold show_prices. pose proof (min_key_spec pr) as Mi. pose proof (max_key_spec pr) as Ma.
  destruct (min_key pr) as [lo|].
  2:{ cbn [obind]. destruct (p_functions p) as [|[f b] fs] eqn:Ef; [reflexivity|]. exfalso. assert (X : defined p f) by (unfold defined; rewrite Ef; now left).
      apply K in X. rewrite Mi in X. destruct X. }
  destruct (max_key pr) as [hi|]; [|subst pr; destruct Mi as [[] _]]. cbn [obind]. destruct Mi as [Il Ml], Ma as [Ih Mh].
  assert (C0 : 0 < nlen code). { apply K, D in Il. lia. }
  assert (lo = n0) as ->. { apply K, D in Il. assert (X : defined p n0) by (apply D; lia). apply K, Ml in X. lia. }
  assert (hi = n0 + nlen code - 1) as ->. { apply K, D in Ih. assert (X : defined p (n0 + nlen code - 1)) by (apply D; lia). apply K, Mh in X. lia. }
  replace (N.to_nat (n0 + nlen code - 1 + 1 - n0)) with (List.length code) by (unfold nlen in *; lia).
  destruct (price_lines_some pr (List.length code) n0) as [l El].
  { intros k Hk. apply assoc_key, K, D. unfold nlen. lia. }
  rewrite El. destruct (price_lines_spec _ _ _ _ El) as [A B]. split; [|split; [now rewrite Keys|exact B]].
  intros X. rewrite X in Keys. destruct code; [unfold nlen in C0; cbn in C0; lia|discriminate Keys].
Qed.

(* ------------------------------------------------------------------------- *)
(** * Validation *)

Lemma ends_with_spec s x : ends_with s x = true <-> exists stem, s = stem ++ x.
Proof.
  unfold ends_with, nlen. split.
  - destruct (N.leb_spec (N.of_nat (List.length x)) (N.of_nat (List.length s))); [|discriminate]. intros E. apply bytes_eqb_spec in E.
    exists (firstn (List.length s - List.length x) s). rewrite <- E at 2. symmetry. apply firstn_skipn.
  - intros [stem ->]. rewrite app_length. destruct (N.leb_spec (N.of_nat (List.length x)) (N.of_nat (List.length stem + List.length x))); [|lia].
    apply bytes_eqb_spec. replace (List.length stem + List.length x - List.length x)%nat with (List.length stem) by lia.
    rewrite skipn_app, skipn_all, Nat.sub_diag. reflexivity.
Qed.
Lemma ends_apart s x y a b : a <> b -> ends_with s (x ++ [a]) = true -> ends_with s (y ++ [b]) = false.
Proof.
  intros N0 H. apply ends_with_spec in H. destruct H as [stem ->]. destruct (ends_with _ (y ++ [b])) eqn:E; [|reflexivity].
  apply ends_with_spec in E. destruct E as [stem' E]. rewrite !app_assoc in E. apply app_inj_tail in E. destruct E as [_ E]. contradiction.
Qed.
Lemma plain_program m : (exists p, program_of m p) <-> plain_code m.
Proof.
  unfold program_of, plain_code. split.
  - intros [p New]. destruct (program_new_inv _ _ _ New) as (md & code & [= <-] & Ec & Ei & Li & Ef & Lf & R & _). exists code. split; [exact Ec|].
    assert (L : nlen (p_functions p) = nlen code) by (rewrite Ef; unfold nlen; now rewrite number_functions_length).
    split; [rewrite <- L; exact Lf|]. split; [rewrite function_imports_spec, <- Ei; exact Li|].
    intros body i I1 I2. destruct (In_nth_error _ _ I1) as [n Hn]. apply (R (nlen (p_imports p) + N.of_nat n)). exists body. split; [|exact I2].
    rewrite Ef. apply number_functions_spec. eauto.
  - intros (code & Ec & Lc & Li & R). rewrite function_imports_spec in Li. unfold program_new. rewrite Ec.
    assert (Ri : read_imports m = Ok (import_names (entries (m_imports m)))).
    { unfold read_imports. destruct (m_imports m) as [l|]; [|reflexivity]. cbn [entries] in *. destruct (N.leb_spec (nlen (import_names l)) u16_max) as [|L]; [reflexivity|]. unfold u16_max in L. lia. }
    rewrite Ri. cbn [bind]. cbv zeta. unfold validate_no_floats. cbn [p_functions].
    set (fs := number_functions _ code). assert (Fl : existsb (fun f => existsb refused_instr (snd f)) fs = false).
    { apply not_true_is_false. intros X. apply existsb_exists in X. destruct X as ([f body] & I1 & X). apply existsb_exists in X. destruct X as (i & I2 & X).
      apply number_functions_spec in I1. destruct I1 as (n & Hn & _). apply nth_error_In in Hn. cbn [snd] in I2. rewrite (R body i Hn I2) in X. discriminate X. }
    rewrite Fl. cbn [bind]. assert (L : nlen fs = nlen code) by (unfold fs, nlen; now rewrite number_functions_length).
    rewrite L. destruct (N.ltb_spec u16_max (nlen code)) as [X|]; [unfold u16_max in X; lia|]. eauto.
Qed.
Section Validate.
Variable parse_wat : bytes -> option bytes.
Variable parse : bytes -> option wmodule.
(** The report is about the module in the file. *)
Lemma validate_cases path content fs : fs path = Some content ->
  (exists m, contains parse_wat parse path content m /\ subcmd_validate parse_wat parse path fs = report (program_new (Some m) false)) \/
  ((forall m, ~ contains parse_wat parse path content m) /\
   (subcmd_validate parse_wat parse path fs = ([LRefused InvalidWasm], Ok tt) \/
    subcmd_validate parse_wat parse path fs = ([LNotUtf8], Err EInvalidUtf8) \/ subcmd_validate parse_wat parse path fs = ([], Err EUnknownExtension))).
Proof.
  intros Ef. unfold subcmd_validate. rewrite Ef.
  assert (W : forall stem, path = stem ++ txt ".wat" \/ path = stem ++ txt ".wast" -> ends_with path (txt ".wat") || ends_with path (txt ".wast") = true).
  { intros stem [E|E]; apply orb_true_iff; [left|right]; apply ends_with_spec; eauto. }
  assert (A : ends_with path (txt ".wat") || ends_with path (txt ".wast") = true -> ends_with path (txt ".wasm") = false).
  { intros H. apply orb_true_iff in H. destruct H as [H|H].
    - exact (ends_apart path (txt ".wa") (txt ".was") 116 109 ltac:(discriminate) H).
    - exact (ends_apart path (txt ".was") (txt ".was") 116 109 ltac:(discriminate) H). }
  destruct (ends_with path (txt ".wat") || ends_with path (txt ".wast")) eqn:Ew.
  - specialize (A eq_refl). assert (Na : forall stem, path <> stem ++ txt ".wasm").
    { intros stem E. assert (X : ends_with path (txt ".wasm") = true) by (apply ends_with_spec; eauto). congruence. }
    assert (St : exists stem, path = stem ++ txt ".wat" \/ path = stem ++ txt ".wast").
    { apply orb_true_iff in Ew. destruct Ew as [X|X]; apply ends_with_spec in X; destruct X as [stem X]; eauto. }
    destruct (utf8_valid content) eqn:U.
    + unfold from_wat. destruct (parse_wat content) as [wasm|] eqn:Pw.
      * destruct (parse wasm) as [m|] eqn:Pm.
        -- left. exists m. split; [|reflexivity]. destruct St as [stem St]. eapply contains_text; eauto.
        -- right. split; [|left; reflexivity]. intros m [stem E _|stem wasm' _ _ E1 E2]; [exact (Na stem E)|congruence].
      * right. split; [|left; reflexivity]. intros m [stem E _|stem wasm' _ _ E1 E2]; [exact (Na stem E)|congruence].
    + right. split; [|auto]. intros m [stem E _|stem wasm' _ E1 _ _]; [exact (Na stem E)|congruence].
  - destruct (ends_with path (txt ".wasm")) eqn:Es.
    + destruct (parse content) as [m|] eqn:Pm.
      * left. exists m. split; [|reflexivity]. apply ends_with_spec in Es. destruct Es as [stem Es]. eapply contains_wasm; eauto.
      * right. split; [|left; reflexivity]. intros m [stem E E'|stem wasm' H _ _ _]; [congruence|]. specialize (W stem H). discriminate W.
    + right. split; [|auto]. intros m [stem E _|stem wasm' H _ _ _]; [|specialize (W stem H); discriminate W].
      assert (X : ends_with path (txt ".wasm") = true) by (apply ends_with_spec; eauto). congruence.
Qed.
Lemma contains_fun path content m m' : contains parse_wat parse path content m -> contains parse_wat parse path content m' -> m = m'.
Proof.
  assert (X : forall stem stem', stem ++ txt ".wasm" = stem' ++ txt ".wat" \/ stem ++ txt ".wasm" = stem' ++ txt ".wast" -> False).
  { intros stem stem' [E|E].
    - change (txt ".wasm") with (txt ".was" ++ [109]) in E. change (txt ".wat") with (txt ".wa" ++ [116]) in E. rewrite !app_assoc in E. apply app_inj_tail in E. destruct E as [_ E]. discriminate E.
    - change (txt ".wasm") with (txt ".was" ++ [109]) in E. change (txt ".wast") with (txt ".was" ++ [116]) in E. rewrite !app_assoc in E. apply app_inj_tail in E. destruct E as [_ E]. discriminate E. }
  intros [stem E P|stem wasm E _ P1 P2] [stem' E' P'|stem' wasm' E' _ P1' P2']; try congruence.
  - exfalso. apply (X stem stem'). destruct E' as [E'|E']; rewrite <- E'; [left|right]; congruence.
  - exfalso. apply (X stem' stem). destruct E as [E|E]; rewrite <- E; [left|right]; congruence.
Qed.
End Validate.
Lemma report_valid m : In LValid (fst (report (program_new (Some m) false))) <-> plain_code m.
Proof.
  rewrite <- plain_program. unfold program_of, report. destruct (program_new (Some m) false) as [p|e|]; cbn.
  - split; [eauto|]. intros _. destruct (price_program p example_resolver) as [fp|]; cbn [obind fst]; [destruct (show_prices fp)|]; cbn; auto.
  - split; [intros [H|[]]; discriminate H|intros [p H]; discriminate H].
  - split; [intros []|intros [p H]; discriminate H].
Qed.
Lemma report_prices m l : In (LPrices l) (fst (report (program_new (Some m) false))) ->
  exists p pr, program_of m p /\ price_program p example_resolver = Some pr /\ show_prices pr = Some l /\
    report (program_new (Some m) false) = ([LValid; LPrices l], Ok tt).
Proof.
  unfold report, program_of. destruct (program_new (Some m) false) as [p|e|]; cbn [fst]; [|intros [H|[]]; discriminate H|intros []].
  destruct (price_program p example_resolver) as [fp|] eqn:Pr; cbn [obind fst]; [|intros [H|[]]; discriminate H].
  destruct (show_prices fp) as [l'|] eqn:E; cbn [fst]; [|intros [H|[]]; discriminate H]. intros [H|[H|[]]]; [discriminate H|]. injection H as <-.
  exists p, fp. auto.
Qed.
Lemma priced_body p r pr m v f body : program_new m v = Ok p -> price_program p r = Some pr -> In (f, body) (p_functions p) ->
  get_func p f = Some body /\ (exists bF, cfg_ops body cfg_new = Some bF /\ cb_depth bF = 0) /\
  exists fp x, sub_map fp pr /\ compute_func_price p r fp f = Some x.
Proof.
  intros New Pr I1. destruct (price_program_spec p r pr Pr) as (_ & _ & B).
  assert (D : defined p f) by (unfold defined; apply in_map_iff; exists (f, body); auto).
  destruct (B f (or_introl D)) as (fp & x & Sb & Cf & _). pose proof (in_assoc f _ body (program_new_nodup _ _ _ New) I1 : get_func p f = Some body) as G. split; [exact G|].
  destruct (compute_spec p r fp pr f x Sb Cf) as (body' & bF & G' & C & _ & _ & Dp & _). rewrite G in G'. injection G' as <-. split; [eauto|]. eauto.
Qed.
Lemma priced_no_loop p r pr m f body : program_of m p -> closed_bodies m -> price_program p r = Some pr -> In (f, body) (p_functions p) -> ~ In Loop body.
Proof.
  intros New Cl Pr I1 L. destruct (priced_body p r pr _ _ f body New Pr I1) as (_ & (bF & C & D) & _).
  pose proof (cfg_ops_depth body _ _ cfg_new_inv C) as X. rewrite D in X. change (cb_depth cfg_new) with 1 in X.
  destruct (program_new_inv _ _ _ New) as (md & code & E & Ec & _ & _ & Fs & _). injection E as <-. rewrite Fs in I1. apply number_functions_spec in I1.
  destruct I1 as (n & Hn & _). apply nth_error_In in Hn. specialize (Cl body). rewrite Ec in Cl. specialize (Cl Hn). rewrite count_split in Cl.
  assert (Z : count (fun i => match i with Loop => true | _ => false end) body = 0) by lia. pose proof (count_none _ _ Loop Z L) as Y. discriminate Y.
Qed.
Lemma priced_imports_known p pr m f body t im : program_of m p -> price_program p example_resolver = Some pr -> In (f, body) (p_functions p) ->
  In (Call t) body -> nth_error (p_imports p) (N.to_nat t) = Some im -> has_price im.
Proof.
  intros New Pr I1 I2 Ei. destruct (priced_body p _ pr _ _ f body New Pr I1) as (G & _ & fp & x & _ & Cf).
  destruct (compute_calls p _ fp f x body t Cf G I2) as (y & R & L). cbn [resolve_op] in R. rewrite Ei in R. injection R as <-. now apply example_known.
Qed.
