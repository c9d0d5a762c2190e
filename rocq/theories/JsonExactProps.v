(** Properties C89 to C93, for any bytes: exactly what the JSON decoders answer, and when. *)
From Coq Require Import String List NArith ZArith Arith Bool Lia ZifyBool ZifyNat ZifyN.
From Verif Require Import Base Text SdkModel SdkSpec SdkProofs AbiModel AbiSpec AbiProofs CodecModel CodecSpec CodecProofs
  ReceiptModel ReceiptSpec ReceiptProofs ReceiptAbortSpec ReceiptAbortProofs ReceiptAbortProps AbiExactSpec AbiExactProofs JsonModel JsonSpec JsonProofs JsonExactSpec JsonExactProofs.
Import ListNotations.
Open Scope list_scope.
Open Scope N_scope.

(** ** C89 Input data.  Bytes are answered with the values they say; all other bytes abort. *)
Theorem C89_decodes_exactly :
  forall j s bs, field "data" j (JStr s) -> spelled s bs ->
  (forall d, decode_inputdata j = Ok d <-> exists vs, input_says bs vs /\ d = printed vs) /\
  (forall e, decode_inputdata j <> Err e).
Proof.
  intros j s bs F S. unfold decode_inputdata. rewrite (get_bytes j s bs F S). cbn [bind].
  split; [intros d; apply calldata_exact; eapply spelled_ok; exact S|intros e; apply calldata_never_err].
Qed.
Print Assumptions C89_decodes_exactly.

(** ** C90 Calls.  A call is answered with its parts if its two inputs say values, none of them an
    empty array; bytes that are no transaction are reported; all others abort. *)
Theorem C90_decodes_exactly :
  forall j s bs, field "data" j (JStr s) -> spelled s bs ->
  (forall d, decode_call j = Ok d <->
     exists t rest vv vc, dec_transaction bs = Ok (t, rest) /\
       input_says (tx_verifydata t) vv /\ no_empty_arrays vv /\ input_says (tx_calldata t) vc /\ no_empty_arrays vc /\
       d = JObj [(txt "calldata", printed vc); (txt "func_name", JStr (tx_func_name t)); (txt "target", JStr (hex_upper (tx_target t)));
                 (txt "verifydata", printed vv); (txt "version", JNum (Z.of_N (tx_version t)))]) /\
  ((exists e, decode_call j = Err e) <-> exists e, dec_transaction bs = Err e).
Proof.
  intros j s bs F S. unfold decode_call. rewrite (get_bytes j s bs F S). cbn [bind]. unfold decode_bytes.
  assert (B : bytes_ok bs) by (eapply spelled_ok; exact S).
  destruct (dec_transaction bs) as [[t rest]|e|] eqn:D; cbn [bind].
  2:{ split; [intros d; split; [discriminate|intros (t & rest & vv & vc & E & _); discriminate E]|]. split; intros [e' H]; [injection H as _|injection H as <-]; eauto. }
  2:{ exfalso. destruct (np_transaction bs) as [[e E]|(x & pre & rest & E & _)]; congruence. }
  destruct (transaction_canon bs t rest B D) as [W _]. pose proof (proj2 (twf_verify t W)) as Bv. pose proof (proj2 (twf_call t W)) as Bc.
  unfold decode_raw_input.
  assert (In : forall x, bytes_ok x -> (exists vs, input_says x vs /\ no_empty_arrays vs /\ exists i, input_to_json i = printed vs /\
                 (forall A (k : input -> jm A), (let* v := calldata_to_json x in let* i := expect (input_new v) in k i) = k i)) \/
               ((forall vs, input_says x vs -> ~ no_empty_arrays vs) /\
                 (forall A (k : input -> jm A), (let* v := calldata_to_json x in let* i := expect (input_new v) in k i) = Panic))).
  { intros x Bx. destruct (calldata_to_json x) as [d|e|] eqn:E.
    - apply calldata_exact in E; [|exact Bx]. destruct E as (vs & Hs & ->). destruct (no_empty_dec vs) as [Ne|Em].
      + left. exists vs. split; [exact Hs|]. split; [exact Ne|]. destruct (printed_again vs (proj2 (proj2 Hs)) Ne) as (i & E1 & E2).
        exists i. split; [exact E2|]. intros A k. cbn [bind]. rewrite E1. reflexivity.
      + right. split.
        * intros vs' Hs' Ne. assert (X : printed vs = printed vs').
          { assert (E1 : calldata_to_json x = Ok (printed vs)) by (apply calldata_exact; eauto). assert (E2 : calldata_to_json x = Ok (printed vs')) by (apply calldata_exact; eauto). congruence. }
          destruct (empty_not_read vs Em) as (e & E1). destruct (printed_again vs' (proj2 (proj2 Hs')) Ne) as (i & E2 & _). rewrite X, E2 in E1. discriminate E1.
        * intros A k. cbn [bind]. destruct (empty_not_read vs Em) as (e & ->). reflexivity.
    - elim (calldata_never_err x e E).
    - right. split; [|reflexivity]. intros vs Hs. assert (X : calldata_to_json x = Ok (printed vs)) by (apply calldata_exact; eauto). congruence. }
  assert (Same : forall x vs vs', bytes_ok x -> input_says x vs -> input_says x vs' -> printed vs = printed vs').
  { intros x vs vs' Bx H H'. assert (E1 : calldata_to_json x = Ok (printed vs)) by (apply calldata_exact; eauto). assert (E2 : calldata_to_json x = Ok (printed vs')) by (apply calldata_exact; eauto). congruence. }
  destruct (In _ Bv) as [(vv & Hv & Nv & iv & Ev & Kv)|[Nv Kv]].
  2:{ rewrite Kv. split; [intros d; split; [discriminate|intros (t' & rest' & vv & vc & [= <- <-] & H1 & H2 & _); elim (Nv vv H1 H2)]|]. split; intros [e H]; discriminate H. }
  rewrite Kv. destruct (In _ Bc) as [(vc & Hc & Nc & ic & Ec & Kc)|[Nc Kc]].
  2:{ rewrite Kc. split; [intros d; split; [discriminate|intros (t' & rest' & vv' & vc & [= <- <-] & _ & _ & H1 & H2 & _); elim (Nc vc H1 H2)]|]. split; intros [e H]; discriminate H. }
  rewrite Kc, Ev, Ec. split; [|split; intros [e H]; discriminate H]. intros d. split.
  - intros [= <-]. exists t, rest, vv, vc. repeat (split; [first [reflexivity|assumption]|]). reflexivity.
  - intros (t' & rest' & vv' & vc' & [= <- <-] & H1 & _ & H2 & _ & ->). now rewrite (Same _ _ _ Bv H1 Hv), (Same _ _ _ Bc H2 Hc).
Qed.
Print Assumptions C90_decodes_exactly.

(** ** C91 Spawns.  A spawn is answered with its parts if its calldata says values; everything
    else aborts. *)
Theorem C91_decodes_exactly :
  forall j s bs, field "data" j (JStr s) -> spelled s bs ->
  (forall d, decode_spawn j = Ok d <->
     exists sp rest vs, dec_spawn bs = Ok (sp, rest) /\ input_says (sp_calldata sp) vs /\
       d = JObj [(txt "calldata", printed vs); (txt "ctor_name", JStr (sp_ctor sp)); (txt "name", JStr (sp_name sp));
                 (txt "template", JStr (hex_upper (sp_template sp))); (txt "version", JNum (Z.of_N (sp_version sp)))]) /\
  (forall e, decode_spawn j <> Err e).
Proof.
  intros j s bs F S. unfold decode_spawn. rewrite (get_bytes j s bs F S). cbn [bind]. unfold decode_bytes.
  assert (B : bytes_ok bs) by (eapply spelled_ok; exact S).
  destruct (dec_spawn bs) as [[sp rest]|e|] eqn:D; cbn [bind].
  2-3: (split; [intros d; split; [discriminate|intros (t & rest & vs & E & _); discriminate E]|discriminate]).
  destruct (spawn_canon bs sp rest B D) as [W _]. pose proof (proj2 (swf_call sp W)) as Bc. unfold decode_raw_input. split.
  - intros d. split.
    + intros H. apply bind_ok in H. destruct H as (c & E & [= <-]). apply calldata_exact in E; [|exact Bc]. destruct E as (vs & Hs & ->). exists sp, rest, vs. auto.
    + intros (sp' & rest' & vs & [= <- <-] & Hs & ->). rewrite (proj2 (calldata_exact _ (printed vs) Bc) (ex_intro _ vs (conj Hs eq_refl))). reflexivity.
  - intros e. destruct (calldata_to_json _) as [c|e'|] eqn:E; cbn [bind]; try discriminate. elim (calldata_never_err _ _ E).
Qed.
Print Assumptions C91_decodes_exactly.

(** ** C92 Receipts.  A document is answered exactly if the bytes begin with a receipt whose logs
    are text, and shows that receipt; everything else aborts. *)
Theorem C92_decodes_exactly :
  forall j s bs, field "data" j (JStr s) -> spelled s bs ->
  ((exists d, decode_receipt j = Ok d) <-> exists r rest, dec_receipt bs = Ok (r, rest) /\ text_logs (logs_of r)) /\
  (forall d, decode_receipt j = Ok d -> exists r rest, dec_receipt bs = Ok (r, rest) /\ shows_read r d) /\
  (forall e, decode_receipt j <> Err e).
Proof.
  intros j s bs F S. unfold decode_receipt. rewrite (get_bytes j s bs F S). cbn [bind].
  destruct bs as [|b bs]; [cbn; split; [split; [intros [d H]; discriminate H|intros (r & rest & H & _); discriminate H]|split; discriminate]|].
  replace (0 <? nlen (b :: bs)) with true by (rewrite nlen_cons; lia). cbn [ensure unwrap bind]. unfold decode_bytes.
  destruct (dec_receipt (b :: bs)) as [[r rest]|e|] eqn:D; cbn [bind].
  2-3: (split; [split; [intros [d H]; discriminate H|intros (r & rest & H & _); discriminate H]|split; discriminate]).
  pose proof (receipt_read r (decoded_complete _ _ _ D)) as K. cbv zeta in K. destruct K as [Yes No].
  destruct (text_logs_dec (logs_of r)) as [T|T].
  - destruct (Yes T) as (d & E & Sh). cbv zeta. rewrite E. cbn [unwrap]. split; [split; eauto|]. split; [|discriminate]. intros d' [= <-]. eauto.
  - cbv zeta. rewrite (No T). cbn [unwrap]. split; [split; [intros [d H]; discriminate H|]|split; discriminate]. intros (r' & rest' & [= <- <-] & T'). now elim T.
Qed.
Print Assumptions C92_decodes_exactly.

(** ** C93 So the decoders answer, report or abort as follows. *)
Theorem C93_aborts_exactly :
  forall j s bs, field "data" j (JStr s) -> spelled s bs ->
  (decode_inputdata j = Panic <-> forall vs, ~ input_says bs vs) /\
  (decode_spawn j = Panic <-> forall sp rest vs, dec_spawn bs = Ok (sp, rest) -> ~ input_says (sp_calldata sp) vs) /\
  (decode_receipt j = Panic <-> forall b rest r, bs = b ++ rest -> wire_receipt b -> dec_receipt bs = Ok (r, rest) -> ~ text_logs (logs_of r)) /\
  (decode_call j = Panic <-> exists t rest, dec_transaction bs = Ok (t, rest) /\
     ((forall vs, input_says (tx_verifydata t) vs -> ~ no_empty_arrays vs) \/ (forall vs, input_says (tx_calldata t) vs -> ~ no_empty_arrays vs))).
Proof.
  intros j s bs F S. assert (B : bytes_ok bs) by (eapply spelled_ok; exact S).
  destruct (C89_decodes_exactly j s bs F S) as [I1 I2]. destruct (C91_decodes_exactly j s bs F S) as [S1 S2].
  destruct (C92_decodes_exactly j s bs F S) as (R1 & R2 & R3). destruct (C90_decodes_exactly j s bs F S) as [K1 K2].
  assert (P : forall (m : jm json), (forall e, m <> Err e) -> (m = Panic <-> ~ exists d, m = Ok d)).
  { intros m Ne. destruct m as [d|e|]; [|now elim (Ne e)|]; split; intros H; try discriminate; [elim H; eauto|intros [d E]; discriminate E|reflexivity]. }
  split; [|split; [|split]].
  - rewrite P by exact I2. split; [intros H vs Hs; apply H; exists (printed vs); apply I1; eauto|]. intros H [d E]. apply I1 in E. destruct E as (vs & Hs & _). exact (H vs Hs).
  - rewrite P by exact S2. split.
    + intros H sp rest vs D Hs. apply H. eexists. apply S1. do 3 eexists. split; [exact D|]. split; [exact Hs|reflexivity].
    + intros H [d E]. apply S1 in E. destruct E as (sp & rest & vs & D & Hs & _). exact (H sp rest vs D Hs).
  - rewrite P by exact R3. rewrite R1. split.
    + intros H b rest r -> _ D T. apply H. eauto.
    + intros H (r & rest & D & T). destruct (proj1 (C55_reads_exactly bs rest B) (ex_intro _ r D)) as (b & E & Wr). exact (H b rest r E Wr D T).
  - split.
    + intros E. destruct (dec_transaction bs) as [[t rest]|e|] eqn:D.
      * exists t, rest. split; [reflexivity|]. pose proof (transaction_canon bs t rest B D) as [W _].
        destruct (calldata_to_json (tx_verifydata t)) as [d|e|] eqn:Ev; [|now elim (calldata_never_err _ _ Ev)|].
        2:{ left. intros vs Hs. assert (X : calldata_to_json (tx_verifydata t) = Ok (printed vs)) by (apply calldata_exact; [exact (proj2 (twf_verify t W))|eauto]). congruence. }
        destruct (calldata_to_json (tx_calldata t)) as [d'|e|] eqn:Ec; [|now elim (calldata_never_err _ _ Ec)|].
        2:{ right. intros vs Hs. assert (X : calldata_to_json (tx_calldata t) = Ok (printed vs)) by (apply calldata_exact; [exact (proj2 (twf_call t W))|eauto]). congruence. }
        apply calldata_exact in Ev; [|exact (proj2 (twf_verify t W))]. destruct Ev as (vv & Hv & ->). apply calldata_exact in Ec; [|exact (proj2 (twf_call t W))]. destruct Ec as (vc & Hc & ->).
        destruct (no_empty_dec vv) as [Nv|Ev']; [destruct (no_empty_dec vc) as [Nc|Ec']|].
        -- exfalso. assert (X : exists d, decode_call j = Ok d) by (eexists; apply K1; exists t, rest, vv, vc; repeat (split; [first [reflexivity|assumption]|]); reflexivity).
           destruct X as [d X]. congruence.
        -- right. intros vs Hs Ne. apply Ec'. eapply same_emptiness; [exact (proj2 (twf_call t W))|exact Hs|exact Hc|exact Ne].
        -- left. intros vs Hs Ne. apply Ev'. eapply same_emptiness; [exact (proj2 (twf_verify t W))|exact Hs|exact Hv|exact Ne].
      * exfalso. assert (X : exists e, decode_call j = Err e) by (apply K2; eauto). destruct X as [e' X]. congruence.
      * exfalso. destruct (np_transaction bs) as [[e E']|(x & pre & rest & E' & _)]; congruence.
    + intros (t & rest & D & H). destruct (decode_call j) as [d|e|] eqn:E; [exfalso|exfalso|reflexivity].
      * destruct (proj1 (K1 d) eq_refl) as (t' & rest' & vv & vc & D' & Hv & Nv & Hc & Nc & _). rewrite D in D'. injection D' as <- <-.
        destruct H as [H|H]; [exact (H vv Hv Nv)|exact (H vc Hc Nc)].
      * destruct (proj1 K2 (ex_intro _ e eq_refl)) as [e' E']. congruence.
Qed.
Print Assumptions C93_aborts_exactly.
(** Bytes that say "true" and an array of two numbers; an empty array, which is shown as input
    data although a call with it aborts; an array of eight, which aborts; no value at all. *)
Example C89_decodes_satisfiable :
  field "data" (data_doc [16; 38; 18; 5; 18; 7]) (JStr (hex_upper [16; 38; 18; 5; 18; 7])) /\
  spelled (hex_upper [16; 38; 18; 5; 18; 7]) [16; 38; 18; 5; 18; 7] /\
  decode_inputdata (data_doc [16; 38; 18; 5; 18; 7]) =
    Ok (printed [VPrim (PBool true); VVec [VPrim (PInt U8 5); VPrim (PInt U8 7)]]) /\
  decode_inputdata (data_doc [6]) = Ok (printed [VVec []]) /\
  decode_inputdata (data_doc (7 :: concat (repeat [18; 5] 8))) = Panic /\
  decode_inputdata (data_doc [255]) = Panic.
Proof. split; [eexists; split; reflexivity|]. split; [apply spelled_upper; apply bytes_okb_ok; reflexivity|]. repeat split; vm_compute; reflexivity. Qed.
(** A call, a spawn and receipts that are answered, and bytes on which the decoders abort. *)
Example C90_decodes_satisfiable :
  (exists bs t d, enc_transaction t = Some bs /\ tx_calldata t = [16] /\ decode_call (data_doc bs) = Ok d) /\
  (exists bs t, enc_transaction t = Some bs /\ tx_calldata t = [6] /\ decode_call (data_doc bs) = Panic) /\
  (exists e, decode_call (data_doc []) = Err e) /\
  (exists bs sp d, enc_spawn sp = Some bs /\ sp_calldata sp = [16; 6] /\ decode_spawn (data_doc bs) = Ok d) /\
  decode_spawn (data_doc []) = Panic /\ decode_receipt (data_doc []) = Panic.
Proof.
  split; [|split; [|split; [|split; [|split; reflexivity]]]].
  - exists (match enc_transaction (mkTransaction 0 (repeat 7 20) [97] [] [16]) with Some b => b | None => [] end), (mkTransaction 0 (repeat 7 20) [97] [] [16]).
    eexists. split; [vm_compute; reflexivity|]. split; [reflexivity|]. vm_compute. reflexivity.
  - exists (match enc_transaction (mkTransaction 0 (repeat 7 20) [97] [] [6]) with Some b => b | None => [] end), (mkTransaction 0 (repeat 7 20) [97] [] [6]).
    split; [vm_compute; reflexivity|]. split; [reflexivity|]. vm_compute. reflexivity.
  - eexists. vm_compute. reflexivity.
  - exists (match enc_spawn (mkSpawn 0 (repeat 7 20) [97] [98] [16; 6]) with Some b => b | None => [] end), (mkSpawn 0 (repeat 7 20) [97] [98] [16; 6]).
    eexists. split; [vm_compute; reflexivity|]. split; [reflexivity|]. vm_compute. reflexivity.
Qed.
