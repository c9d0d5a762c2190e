(** Property theorems for the JSON interface. *)
From Coq Require Import String List NArith ZArith Arith Bool Lia ZifyBool ZifyNat ZifyN.
From Verif Require Import Base Text SdkModel SdkSpec SdkProofs AbiModel AbiSpec AbiProofs CodecModel CodecSpec CodecProofs
  ReceiptModel ReceiptSpec ReceiptProofs JsonModel JsonSpec JsonProofs.
Import ListNotations.
Open Scope list_scope.
Open Scope N_scope.

(** ** C51 Bytes in JSON *)
(** Bytes are written as upper-case digits and read back from digits of either case; a field
    that is an address takes exactly twenty bytes.  Nothing else is accepted. *)
Theorem C51_hex :
  (forall bs, bytes_ok bs -> exists s, hex_to_json bs = JStr s /\ spelled s bs /\ upper_case s /\ length s = (2 * length bs)%nat) /\
  (forall j bs, hex_of_json j = Some bs <-> exists s, j = JStr s /\ spelled s bs) /\
  (forall j a, address_of_json j = Some a <-> exists s, j = JStr s /\ spelled s a /\ length a = 20%nat) /\
  (forall bs, bytes_ok bs -> hex_of_json (hex_to_json bs) = Some bs) /\
  (forall a, array_wf 20 a -> address_of_json (hex_to_json a) = Some a).
Proof.
  assert (R : forall j bs, hex_of_json j = Some bs <-> exists s, j = JStr s /\ spelled s bs).
  { intros j bs. destruct j; cbn [hex_of_json]; try (split; [discriminate|intros (x & H & _); discriminate H]).
    rewrite unhex_spelled. split; [eauto|intros (x & [= <-] & S); exact S]. }
  split; [|split; [exact R|split; [apply address_spec|split]]].
  - intros bs B. exists (hex_upper bs). split; [reflexivity|]. split; [now apply spelled_upper|]. split; [now apply hex_upper_case|apply hex_upper_length].
  - intros bs B. apply R. eexists. split; [reflexivity|now apply spelled_upper].
  - intros a [L B]. apply address_spec. eexists. split; [reflexivity|]. split; [now apply spelled_upper|exact L].
Qed.
Print Assumptions C51_hex.
Example C51_satisfiable :
  hex_to_json [10; 255; 0] = JStr (txt "0AFF00") /\ hex_of_json (JStr (txt "0afF00")) = Some [10; 255; 0] /\
  hex_of_json (JStr (txt "0af")) = None /\ hex_of_json (JStr (txt "0g")) = None /\ address_of_json (JStr (txt "0A")) = None /\
  address_of_json (hex_to_json (repeat 171 20)) = Some (repeat 171 20).
Proof. repeat split; reflexivity. Qed.

(** ** C52 Gas in JSON *)
(** Gas below 2^63, and its absence, are shown as such, so documents tell them apart.
    Missing: gas from 2^63 on. *)
Theorem C52_shown_partial :
  (forall n, n < 2 ^ 63 -> gas_to_json (Some n) = JNum (Z.of_N n)) /\ gas_to_json None = JNum (-1) /\
  (forall g1 g2, small_gas g1 -> small_gas g2 -> gas_to_json g1 = gas_to_json g2 -> g1 = g2).
Proof.
  split; [intros n L; exact (gas_shown (Some n) L)|]. split; [reflexivity|].
  intros g1 g2 S1 S2 E. rewrite !gas_shown in E by assumption. injection E as E. destruct g1, g2; try lia; f_equal; lia.
Qed.
Print Assumptions C52_shown_partial.
(** Exactly one pair of values is shown alike. *)
Theorem C52_ambiguous :
  forall g1 g2, (forall n, g1 = Some n \/ g2 = Some n -> n < 2 ^ 64) ->
  (gas_to_json g1 = gas_to_json g2 <-> g1 = g2 \/ (g1 = None /\ g2 = Some (2 ^ 64 - 1)) \/ (g1 = Some (2 ^ 64 - 1) /\ g2 = None)).
Proof.
  intros g1 g2 W.
  assert (X : forall n, n < 2 ^ 64 -> as_ity I64 (Z.of_N n) = if (n <? 2 ^ 63) then Z.of_N n else (Z.of_N n - 2 ^ 64)%Z).
  { intros n L. destruct (N.ltb_spec n (2 ^ 63)) as [L3|L3].
    - pose proof (gas_shown (Some n) L3) as G. unfold gas_to_json in G. now injection G.
    - unfold as_ity. cbn [ity_bits ity_signed andb]. change (2 ^ 64) with 18446744073709551616 in L. change (2 ^ 63) with 9223372036854775808 in L3.
      change (2 ^ 64)%Z with 18446744073709551616%Z. change (2 ^ (64 - 1))%Z with 9223372036854775808%Z.
      rewrite Z.mod_small by lia. destruct (Z.leb_spec 9223372036854775808 (Z.of_N n)); [reflexivity|lia]. }
  Ltac lit := change (2 ^ 64)%Z with 18446744073709551616%Z in *; change (2 ^ 64) with 18446744073709551616 in *; change (2 ^ 63) with 9223372036854775808 in *.
  destruct g1 as [a|], g2 as [b|]; unfold gas_to_json.
  - rewrite !X by (apply W; auto). pose proof (W a (or_introl eq_refl)). pose proof (W b (or_intror eq_refl)). split.
    + intros E; apply (f_equal (fun j => match j with JNum z => z | _ => 0%Z end)) in E; cbv beta iota in E; lit. left. f_equal. destruct (N.ltb_spec a 9223372036854775808), (N.ltb_spec b 9223372036854775808); lia.
    + intros [[= <-]|[[H1 _]|[_ H1]]]; [reflexivity|discriminate H1|discriminate H1].
  - rewrite X by (apply W; auto). pose proof (W a (or_introl eq_refl)). split.
    + intros E; apply (f_equal (fun j => match j with JNum z => z | _ => 0%Z end)) in E; cbv beta iota in E; lit. right. right. split; [|reflexivity]. f_equal. destruct (N.ltb_spec a 9223372036854775808); lia.
    + intros [H1|[[H1 _]|[H1 _]]]; try discriminate H1. injection H1 as ->. reflexivity.
  - rewrite X by (apply W; auto). pose proof (W b (or_intror eq_refl)). split.
    + intros E; apply (f_equal (fun j => match j with JNum z => z | _ => 0%Z end)) in E; cbv beta iota in E; lit. right. left. split; [reflexivity|]. f_equal. destruct (N.ltb_spec b 9223372036854775808); lia.
    + intros [H1|[[_ H1]|[H1 _]]]; try discriminate H1. injection H1 as ->. reflexivity.
  - split; auto.
Qed.
Print Assumptions C52_ambiguous.
(** Gas from 2^63 on is shown as a negative number; the largest one as no gas at all. *)
Theorem C52_gas_refuted :
  ~ (forall n, n < 2 ^ 64 -> gas_to_json (Some n) = JNum (Z.of_N n)) /\
  ~ (forall n, n < 2 ^ 64 -> gas_to_json (Some n) <> gas_to_json None).
Proof.
  split; intros H; [specialize (H (2 ^ 63) ltac:(reflexivity)); vm_compute in H; discriminate H|].
  apply (H (2 ^ 64 - 1)); reflexivity.
Qed.
Print Assumptions C52_gas_refuted.
Example C52_satisfiable : small_gas (Some 1000) /\ gas_to_json (Some 1000) = JNum 1000.
Proof. split; reflexivity. Qed.

(** ** C88 Encoding input data *)
(** [encode_inputdata] answers with the encoding of the values, in order, exactly when the
    types and values are as many and every value is one of its type; it reports an error when
    the document lacks well-formed types or values or has different numbers of them; in the
    other cases it aborts. *)
Theorem C88_encode :
  forall j,
  match encode_inputdata j with
  | Ok r => exists ts ds vs, input_fields j ts ds /\ length ts = length ds /\ zip_reads ts ds vs /\ r = data_doc (flat_map format vs)
  | Err _ => ~ (exists ts ds, input_fields j ts ds /\ length ts = length ds)
  | Panic => exists ts ds, input_fields j ts ds /\ length ts = length ds /\ forall vs, ~ zip_reads ts ds vs
  end.
Proof.
  intros j. unfold encode_inputdata. destruct (input_new j) as [[ts ds]|e|] eqn:E.
  - cbn [bind]. apply input_new_ok in E. destruct E as [F L].
    destruct (input_encode_ok_dec (mkInput ts ds)) as [[bs Eb]|[N P]].
    + rewrite Eb. cbn [expect bind]. apply input_encode_spec in Eb. destruct Eb as (vs & Z & ->). exists ts, ds, vs. auto.
    + rewrite P. cbn [bind]. exists ts, ds. auto.
  - cbn [bind]. intros (ts & ds & F & L). rewrite (proj2 (input_new_ok j ts ds) (conj F L)) in E. discriminate E.
  - exfalso. exact (input_new_no_panic j E).
Qed.
Print Assumptions C88_encode.
(** A value that is not of its type aborts the program instead of being reported. *)
Definition bad_value : json := JObj [(txt "abi", JArr [JStr (txt "u8")]); (txt "data", JArr [JNum 256])].
Definition bad_type : json := JObj [(txt "abi", JArr [JArr []]); (txt "data", JArr [JArr []])].
Theorem C88_reports_refuted :
  ~ (forall j, encode_inputdata j <> Panic) /\ encode_inputdata bad_value = Panic /\ encode_inputdata bad_type = Panic.
Proof. split; [intros H; exact (H bad_value eq_refl)|split; reflexivity]. Qed.
Print Assumptions C88_reports_refuted.
Definition ex_input : json :=
  JObj [(txt "abi", JArr [JStr (txt "u32"); JArr [JStr (txt "i8")]; JStr (txt "address"); JStr (txt "amount")]);
        (txt "data", JArr [JNum 70000; JArr [JNum (-10); JNum 30]; hex_to_json (repeat 171 20); JNum 5])].
Example C88_satisfiable :
  encode_inputdata ex_input =
    Ok (data_doc ([99; 1; 17; 112; 38; 2; 246; 2; 30; 64] ++ repeat 171 20 ++ [1; 5])) /\
  encode_inputdata (JObj [(txt "abi", JArr [JStr (txt "u8")]); (txt "data", JArr [])]) = Err (InvalidField (txt "data")).
Proof. split; reflexivity. Qed.

(** ** C89 Input data round trip *)
(** Decoding what [encode_inputdata] answered gives back the types and the values.  Missing:
    empty arrays, arrays of eight elements, arrays of arrays. *)
Theorem C89_round_trip_partial :
  forall j ts ds vs, input_fields j ts ds -> length ts = length ds -> zip_reads ts ds vs ->
  Forall flat_sig ts -> Forall readable vs ->
  exists r, encode_inputdata j = Ok r /\ decode_inputdata r = Ok (show_input ts vs).
Proof.
  intros j ts ds vs F L Z Fs Rd. exists (data_doc (flat_map format vs)). unfold encode_inputdata.
  rewrite (proj2 (input_new_ok j ts ds) (conj F L)). cbn [bind].
  rewrite (proj2 (input_encode_spec ts ds _) (ex_intro _ vs (conj Z eq_refl))). split; [reflexivity|].
  unfold decode_inputdata. rewrite get_data_hex by (apply formats_ok; eapply zip_reads_flat; eauto). cbn [bind]. eapply calldata_shown; eauto.
Qed.
Print Assumptions C89_round_trip_partial.
(** When the types and addresses are spelled the usual way, the result is the document. *)
Theorem C89_identity_partial :
  forall ts ds vs, length ts = length ds -> zip_reads ts ds vs -> Forall flat_sig ts -> Forall readable vs -> Forall2 normal ts ds ->
  let j := JObj [(txt "abi", JArr (map show_sig ts)); (txt "data", JArr ds)] in
  exists r, encode_inputdata j = Ok r /\ decode_inputdata r = Ok j.
Proof.
  intros ts ds vs L Z Fs Rd Nm j.
  assert (F : input_fields j ts ds).
  { exists (map show_sig ts). split; [eexists; split; reflexivity|]. split; [|eexists; split; reflexivity].
    clear -Fs. induction Fs; constructor; [now apply show_sig_spells|assumption]. }
  destruct (C89_round_trip_partial j ts ds vs F L Z Fs Rd) as (r & E & D). exists r. split; [exact E|]. rewrite D. unfold show_input, j. do 2 f_equal.
  assert (X : map show_value vs = ds).
  { clear -L Z Fs Nm. revert ds vs L Z Fs Nm. induction ts as [|t ts IH]; intros [|d ds] [|v vs] L Z Fs Nm; try discriminate L; try contradiction Z; [reflexivity|].
    inversion Fs; subst. inversion Nm; subst. destruct Z as [R Z]. cbn [map]. f_equal; [eapply normal_shown; eauto|]. apply IH; auto. }
  now rewrite X.
Qed.
Print Assumptions C89_identity_partial.
(** An empty array is encoded, and decoded with the type [null], which is not a type. *)
Definition empty_array : json := JObj [(txt "abi", JArr [JArr [JStr (txt "u8")]]); (txt "data", JArr [JArr []])].
(** Eight elements are encoded, and decoding aborts. *)
Definition eight_array : json := JObj [(txt "abi", JArr [JArr [JStr (txt "bool")]]); (txt "data", JArr [JArr (repeat (JBool true) 8)])].
Theorem C89_round_trip_refuted :
  ~ (forall j r, encode_inputdata j = Ok r -> decode_inputdata r <> Panic) /\
  ~ (forall j r r', encode_inputdata j = Ok r -> decode_inputdata r = Ok r' -> exists r'', encode_inputdata r' = Ok r'').
Proof.
  split; intros H.
  - apply (H eight_array (data_doc (7 :: repeat 16 8))); reflexivity.
  - destruct (H empty_array (data_doc [6]) (JObj [(txt "abi", JArr [JNull]); (txt "data", JArr [JArr []])]) eq_refl eq_refl) as (r & E).
    vm_compute in E. discriminate E.
Qed.
Print Assumptions C89_round_trip_refuted.
Definition ex_ts : list tysig := [TPrim (YInt U32); TArr [TPrim (YInt I8)]; TPrim YAddress; TPrim YAmount].
Definition ex_vs : list value :=
  [VPrim (PInt U32 70000); VVec [VPrim (PInt I8 (-10)); VPrim (PInt I8 30)]; VPrim (PAddress (repeat 171 20)); VPrim (PAmount 5)].
Definition ex_ds : list json := [JNum 70000; JArr [JNum (-10); JNum 30]; hex_to_json (repeat 171 20); JNum 5].
Lemma ex_reads : zip_reads ex_ts ex_ds ex_vs.
Proof.
  assert (X : input_encode (mkInput ex_ts ex_ds) = Ok (flat_map format ex_vs)) by (vm_compute; reflexivity).
  unfold ex_ts, ex_ds, ex_vs, zip_reads. split; [apply value_spec; vm_compute; reflexivity|]. split; [apply value_spec; vm_compute; reflexivity|].
  split; [apply value_spec; vm_compute; reflexivity|]. split; [apply value_spec; vm_compute; reflexivity|exact Logic.I].
Qed.
Lemma ex_normal : Forall2 normal ex_ts ex_ds.
Proof.
  assert (U : upper_case (hex_upper (repeat 171 20))) by (apply hex_upper_case; apply bytes_okb_ok; reflexivity).
  unfold ex_ts, ex_ds. constructor; [exact Logic.I|]. constructor; [intros js [= <-]; repeat constructor|]. constructor; [|constructor; [exact Logic.I|constructor]].
  exists (hex_upper (repeat 171 20)). split; [reflexivity|exact U].
Qed.
Lemma ex_flat : Forall flat_sig ex_ts /\ Forall readable ex_vs.
Proof. split; repeat constructor; discriminate. Qed.
Example C89_satisfiable :
  length ex_ts = length ex_ds /\ zip_reads ex_ts ex_ds ex_vs /\ Forall flat_sig ex_ts /\ Forall readable ex_vs /\ Forall2 normal ex_ts ex_ds /\
  input_fields ex_input ex_ts ex_ds.
Proof.
  split; [reflexivity|]. split; [exact ex_reads|]. split; [apply ex_flat|]. split; [apply ex_flat|]. split; [exact ex_normal|].
  exists (map show_sig ex_ts). split; [eexists; split; reflexivity|]. split; [|eexists; split; reflexivity].
  destruct ex_flat as [F _]. clear -F. induction F; constructor; [now apply show_sig_spells|assumption].
Qed.

(** ** C90 Calls in JSON *)
(** The bytes that [encode_call] answers with are a transaction with the version, target,
    function and the two inputs that the document gives (as bytes or as types and values). *)
Theorem C90_encode :
  forall j t, call_doc j t -> string_wf 255 (tx_func_name t) -> nlen (tx_verifydata t) <= 255 -> nlen (tx_calldata t) <= 255 ->
  exists bs, encode_call_raw j = Ok bs /\ encode_call j = Ok (data_doc bs) /\ forall rest, dec_transaction (bs ++ rest) = Ok (t, rest).
Proof.
  intros j t D W L1 L2. destruct (transaction_rt t (call_doc_wf j t D W L1 L2)) as (bs & E & R).
  assert (X : encode_call_raw j = Ok bs) by (apply encode_call_spec; eauto).
  exists bs. split; [exact X|]. split; [|exact R]. unfold encode_call. rewrite X. reflexivity.
Qed.
Print Assumptions C90_encode.
(** Nothing else is answered with bytes. *)
Theorem C90_only :
  forall j bs, encode_call_raw j = Ok bs -> exists t, call_doc j t /\ enc_transaction t = Some bs.
Proof. intros j bs. apply encode_call_spec. Qed.
Print Assumptions C90_only.
(** Decoding the encoded call gives back its parts.  Missing: inputs that are not the
    encoding of readable values. *)
Theorem C90_round_trip_partial :
  forall j t jv jc, call_doc j t -> string_wf 255 (tx_func_name t) -> nlen (tx_verifydata t) <= 255 -> nlen (tx_calldata t) <= 255 ->
  shown_input (tx_verifydata t) jv -> shown_input (tx_calldata t) jc ->
  exists d, encode_call j = Ok d /\
    decode_call d = Ok (JObj [(txt "calldata", jc); (txt "func_name", JStr (tx_func_name t)); (txt "target", JStr (hex_upper (tx_target t)));
                              (txt "verifydata", jv); (txt "version", JNum (Z.of_N (tx_version t)))]).
Proof.
  intros j t jv jc D W L1 L2 Sv Sc. destruct (C90_encode j t D W L1 L2) as (bs & E & E' & R). exists (data_doc bs). split; [exact E'|].
  unfold decode_call. assert (B : bytes_ok bs).
  { apply encode_call_spec in E. destruct E as (t' & D' & E'').
    pose proof (call_doc_wf j t D W L1 L2) as Wt. destruct (transaction_rt t Wt) as (bs' & E3 & R3).
    assert (X : encode_call_raw j = Ok bs') by (apply encode_call_spec; eauto). assert (Y : encode_call_raw j = Ok bs) by (apply encode_call_spec; eauto).
    rewrite X in Y. injection Y as <-. eapply enc_transaction_ok; eauto. }
  rewrite get_data_hex by exact B. cbn [bind]. unfold decode_bytes. pose proof (R []) as R0. rewrite app_nil_r in R0. rewrite R0. cbn [bind].
  rewrite (raw_shown _ _ Sv). cbn [bind]. destruct (shown_new _ _ Sv) as (iv & -> & <-). cbn [expect bind].
  rewrite (raw_shown _ _ Sc). cbn [bind]. destruct (shown_new _ _ Sc) as (ic & -> & <-). reflexivity.
Qed.
Print Assumptions C90_round_trip_partial.
(** Values without a type, and types without a value, are dropped silently: the call is
    encoded without them. *)
Definition short_call : json :=
  JObj [(txt "version", JNum 0); (txt "target", hex_to_json (repeat 171 20)); (txt "func_name", JStr (txt "f"));
        (txt "verifydata", JStr []); (txt "calldata", JObj [(txt "abi", JArr [JStr (txt "bool")]); (txt "data", JArr [JBool true; JNum 300])])].
Theorem C90_complete_refuted :
  ~ (forall j bs c ts ds, encode_call_raw j = Ok bs -> field "calldata" j c -> input_fields c ts ds -> length ts = length ds).
Proof.
  intros H. assert (E : exists bs, encode_call_raw short_call = Ok bs) by (vm_compute; eexists; reflexivity). destruct E as [bs E].
  assert (X : length [TPrim YBool] = length [JBool true; JNum 300]).
  { eapply (H short_call bs); [exact E|eexists; split; reflexivity|]. exists [JStr (txt "bool")]. split; [eexists; split; reflexivity|].
    split; [constructor; [now left|constructor]|eexists; split; reflexivity]. }
  discriminate X.
Qed.
Print Assumptions C90_complete_refuted.
(** Decoding an encoded call can abort: here with an empty array as argument. *)
Definition empty_call : json :=
  JObj [(txt "version", JNum 0); (txt "target", hex_to_json (repeat 171 20)); (txt "func_name", JStr (txt "f"));
        (txt "verifydata", JStr []); (txt "calldata", empty_array)].
Theorem C90_round_trip_refuted :
  ~ (forall j d, encode_call j = Ok d -> decode_call d <> Panic).
Proof.
  intros H. assert (E : exists d, encode_call empty_call = Ok d /\ decode_call d = Panic).
  { exists (data_doc [0; 0; 171; 171; 171; 171; 171; 171; 171; 171; 171; 171; 171; 171; 171; 171; 171; 171; 171; 171; 171; 171; 1; 102; 0; 1; 6]). split; reflexivity. }
  destruct E as (d & E & P). exact (H _ d E P).
Qed.
Print Assumptions C90_round_trip_refuted.
Definition ex_tx : transaction :=
  mkTransaction 0 (repeat 171 20) (txt "do_something") [16; 2; 3] (flat_map format ex_vs).
Definition ex_call : json :=
  JObj [(txt "calldata", ex_input); (txt "func_name", JStr (txt "do_something")); (txt "target", hex_to_json (repeat 171 20));
        (txt "verifydata", JStr (txt "100203")); (txt "version", JNum 0)].
Example C90_satisfiable :
  call_doc ex_call ex_tx /\ string_wf 255 (tx_func_name ex_tx) /\
  shown_input (tx_calldata ex_tx) ex_input /\
  shown_input (tx_verifydata ex_tx) (JObj [(txt "abi", JArr [JStr (txt "bool"); JStr (txt "i8")]); (txt "data", JArr [JBool true; JNum 3])]).
Proof.
  assert (F : input_fields ex_input ex_ts ex_ds).
  { exists (map show_sig ex_ts). split; [eexists; split; reflexivity|]. split; [|eexists; split; reflexivity].
    destruct ex_flat as [F _]. clear -F. induction F; constructor; [now apply show_sig_spells|assumption]. }
  split; [|split; [|split]].
  - unfold call_doc. split; [eexists; split; reflexivity|]. split; [reflexivity|]. split; [|split; [eexists; split; reflexivity|split]].
    + exists (hex_upper (repeat 171 20)). split; [eexists; split; reflexivity|]. split; [|reflexivity].
      apply spelled_upper. apply bytes_okb_ok. reflexivity.
    + exists (JStr (txt "100203")). split; [eexists; split; reflexivity|]. left. eexists. split; [reflexivity|]. apply unhex_spelled. reflexivity.
    + exists ex_input. split; [eexists; split; reflexivity|]. right. exists ex_ts, ex_ds, ex_vs. split; [left; exact F|]. split; [exact ex_reads|reflexivity].
  - split; [|reflexivity]. split; [vm_compute; discriminate|]. apply bytes_okb_ok. reflexivity.
  - exists ex_ts, ex_ds, ex_vs. split; [reflexivity|]. split; [exact ex_reads|]. split; [apply ex_flat|]. split; [apply ex_flat|]. split; reflexivity.
  - exists [TPrim YBool; TPrim (YInt I8)], [JBool true; JNum 3], [VPrim (PBool true); VPrim (PInt I8 3)]. split; [reflexivity|].
    split; [split; [reflexivity|]; split; [|exact Logic.I]; apply value_spec; reflexivity|]. split; [repeat constructor|]. split; [repeat constructor|]. split; reflexivity.
Qed.

(** ** C91 Spawns in JSON *)
Theorem C91_encode :
  forall j s, spawn_doc j s -> string_wf 255 (sp_name s) -> string_wf 255 (sp_ctor s) -> nlen (sp_calldata s) <= 255 ->
  exists bs, encode_spawn j = Ok bs /\ forall rest, dec_spawn (bs ++ rest) = Ok (s, rest).
Proof.
  intros j s D W W' L. destruct (spawn_rt s (spawn_doc_wf j s D W W' L)) as (bs & E & R).
  exists bs. split; [|exact R]. apply encode_spawn_spec. eauto.
Qed.
Print Assumptions C91_encode.
Theorem C91_only :
  forall j bs, encode_spawn j = Ok bs -> exists s, spawn_doc j s /\ enc_spawn s = Some bs.
Proof. intros j bs. apply encode_spawn_spec. Qed.
Print Assumptions C91_only.
(** Call data written as values is given back as those values. *)
Theorem C91_round_trip_partial :
  forall j s jc, spawn_doc j s -> string_wf 255 (sp_name s) -> string_wf 255 (sp_ctor s) -> nlen (sp_calldata s) <= 255 ->
  shown_input (sp_calldata s) jc ->
  exists bs, encode_spawn j = Ok bs /\
    decode_spawn (data_doc bs) = Ok (JObj [(txt "calldata", jc); (txt "ctor_name", JStr (sp_ctor s)); (txt "name", JStr (sp_name s));
                                           (txt "template", JStr (hex_upper (sp_template s))); (txt "version", JNum (Z.of_N (sp_version s)))]).
Proof.
  intros j s jc D W W' L Sc. pose proof (spawn_doc_wf j s D W W' L) as Ws. destruct (spawn_rt s Ws) as (bs & E & R).
  exists bs. split; [apply encode_spawn_spec; eauto|]. unfold decode_spawn. rewrite get_data_hex by (eapply enc_spawn_ok; eauto). cbn [bind].
  unfold decode_bytes. pose proof (R []) as R0. rewrite app_nil_r in R0. rewrite R0. cbn [bind]. rewrite (raw_shown _ _ Sc). reflexivity.
Qed.
Print Assumptions C91_round_trip_partial.
(** Whatever the call data, decoding gives back the other parts, and shows the call data as [decode_inputdata]
    shows these bytes by themselves; it aborts exactly if that does. *)
Theorem C91_decode :
  forall j s, spawn_doc j s -> string_wf 255 (sp_name s) -> string_wf 255 (sp_ctor s) -> nlen (sp_calldata s) <= 255 ->
  exists bs, encode_spawn j = Ok bs /\
    ((exists jc, decode_inputdata (data_doc (sp_calldata s)) = Ok jc /\
        decode_spawn (data_doc bs) = Ok (JObj [(txt "calldata", jc); (txt "ctor_name", JStr (sp_ctor s)); (txt "name", JStr (sp_name s));
                                               (txt "template", JStr (hex_upper (sp_template s))); (txt "version", JNum (Z.of_N (sp_version s)))]))
     \/ (decode_inputdata (data_doc (sp_calldata s)) = Panic /\ decode_spawn (data_doc bs) = Panic)).
Proof.
  intros j s D W W' L. pose proof (spawn_doc_wf j s D W W' L) as Ws. destruct (spawn_rt s Ws) as (bs & E & R).
  exists bs. split; [apply encode_spawn_spec; eauto|]. unfold decode_spawn. rewrite get_data_hex by (eapply enc_spawn_ok; eauto). cbn [bind].
  unfold decode_bytes. pose proof (R []) as R0. rewrite app_nil_r in R0. rewrite R0. cbn [bind]. unfold decode_inputdata.
  rewrite get_data_hex by exact (proj2 (swf_call s Ws)). cbn [bind]. unfold decode_raw_input.
  unfold calldata_to_json. destruct (calldata_loop _ _) as [[abi data]|]; cbn [unwrap bind]; [left; eexists; split; reflexivity|right; split; reflexivity].
Qed.
Print Assumptions C91_decode.
(** So not every spawn that can be encoded can be decoded. *)
Theorem C91_round_trip_refuted :
  ~ (forall j s bs, spawn_doc j s -> encode_spawn j = Ok bs -> exists j', decode_spawn (data_doc bs) = Ok j').
Proof.
  intros H.
  pose (j := JObj [(txt "version", JNum 0); (txt "template", hex_to_json (repeat 171 20)); (txt "name", JStr (txt "a")); (txt "ctor_name", JStr (txt "b")); (txt "calldata", hex_to_json [80])]).
  destruct (encode_spawn j) as [bs|e|] eqn:E; [|vm_compute in E; discriminate E..].
  destruct (C91_only j bs E) as (s & D & _). destruct (H j s bs D E) as (j' & K). vm_compute in E. injection E as <-. vm_compute in K. discriminate K.
Qed.
Print Assumptions C91_round_trip_refuted.
Definition ex_spawn : spawn_account := mkSpawn 1 (repeat 171 20) (txt "My Account") (txt "initialize") (flat_map format ex_vs).
Example C91_satisfiable :
  spawn_doc (JObj [(txt "version", JNum 1); (txt "template", hex_to_json (repeat 171 20)); (txt "name", JStr (txt "My Account"));
                   (txt "ctor_name", JStr (txt "initialize")); (txt "calldata", hex_to_json (flat_map format ex_vs))]) ex_spawn /\
  string_wf 255 (sp_name ex_spawn) /\ string_wf 255 (sp_ctor ex_spawn) /\ nlen (sp_calldata ex_spawn) <= 255 /\
  shown_input (sp_calldata ex_spawn) ex_input.
Proof.
  split.
  { unfold spawn_doc. split; [eexists; split; reflexivity|]. split; [reflexivity|]. split; [|split; [eexists; split; reflexivity|split; [eexists; split; reflexivity|]]].
    - exists (hex_upper (repeat 171 20)). split; [eexists; split; reflexivity|]. split; [|reflexivity]. apply spelled_upper. apply bytes_okb_ok. reflexivity.
    - exists (hex_to_json (flat_map format ex_vs)). split; [eexists; split; reflexivity|]. left. eexists. split; [reflexivity|]. apply spelled_upper. apply bytes_okb_ok. reflexivity. }
  split; [split; [split; [vm_compute; discriminate|apply bytes_okb_ok; reflexivity]|reflexivity]|].
  split; [split; [split; [vm_compute; discriminate|apply bytes_okb_ok; reflexivity]|reflexivity]|].
  split; [vm_compute; discriminate|].
  exists ex_ts, ex_ds, ex_vs. split; [reflexivity|]. split; [exact ex_reads|]. split; [apply ex_flat|]. split; [apply ex_flat|]. split; reflexivity.
Qed.

(** ** C92 Receipts in JSON *)
(** The document for an encoded receipt shows the receipt.  Missing: logs that are not text. *)
Theorem C92_shows_partial :
  forall r, receipt_wf r -> text_logs (logs_of (view r)) ->
  exists bs j, enc_receipt r = Some bs /\ decode_receipt (data_doc bs) = Ok j /\ shows r j.
Proof.
  intros r W T. destruct (receipt_shown r W) as (bs & E & j & D & S).
  { destruct r; exact T. }
  exists bs, j. split; [exact E|]. split; [|exact S]. specialize (D [] ltac:(constructor)). now rewrite app_nil_r in D.
Qed.
Print Assumptions C92_shows_partial.
(** A document shows at most one receipt (up to the logs of a failed deployment and the end of
    long messages, which receipts on the wire do not carry). *)
Theorem C92_faithful_partial :
  forall r1 r2 j, receipt_wf r1 -> receipt_wf r2 -> small_gas (gas_of r1) -> small_gas (gas_of r2) ->
  shows r1 j -> shows r2 j -> view r1 = view r2.
Proof.
  assert (Hx : forall name j a b, bytes_ok a -> bytes_ok b -> hex name j a -> hex name j b -> a = b).
  { intros name j a b A B H1 H2. unfold hex in *. pose proof (field_fun _ _ _ _ H1 H2) as E. injection E as E. now apply hex_upper_inj. }
  assert (Tx : forall name j a b, text name j a -> text name j b -> a = b).
  { intros name j a b H1 H2. pose proof (field_fun _ _ _ _ H1 H2) as E. now injection E. }
  assert (Lg : forall j a b, shown_logs a j -> shown_logs b j -> a = b).
  { intros j a b H1 H2. pose proof (field_fun _ _ _ _ H1 H2) as E. injection E as E. now apply logs_inj. }
  assert (Tc : forall j a b, touched_wf a -> touched_wf b -> shown_touched a j -> shown_touched b j -> a = b).
  { intros j a b (_ & _ & A) (_ & _ & B) H1 H2. pose proof (field_fun _ _ _ _ H1 H2) as E. injection E as E.
    apply hex_list_inj; [eapply Forall_impl; [|exact A]; intros x [_ X]; exact X|eapply Forall_impl; [|exact B]; intros x [_ X]; exact X|exact E]. }
  assert (Gs : forall j a b, shown_gas a j -> shown_gas b j -> a = b).
  { intros j a b H1 H2. pose proof (field_fun _ _ _ _ H1 H2) as E. injection E as E. destruct a, b; try lia; f_equal; lia. }
  assert (Er : forall j a b, error_wf a -> error_wf b -> shows_error (error_on_wire a) j -> shows_error (error_on_wire b) j -> error_on_wire a = error_on_wire b).
  { intros j a b A B H1 H2. destruct a, b; cbn [error_on_wire shows_error error_wf] in *;
      repeat match goal with H : _ /\ _ |- _ => destruct H end;
      match goal with X : text "err_type" _ ?x, Y : text "err_type" _ ?y |- _ =>
        lazymatch x with y => idtac | _ => exfalso; pose proof (Tx _ _ _ _ X Y) as E; vm_compute in E; discriminate E end | _ => idtac end;
      unfold array_wf in *; repeat match goal with H : _ /\ _ |- _ => destruct H end;
      f_equal; try reflexivity; solve [eapply Hx; eassumption | eapply Tx; eassumption]. }
  intros r1 r2 j W1 W2 G1 G2 (T1 & S1 & R1) (T2 & S2 & R2).
  assert (K : ReceiptSpec.kind_of r1 = ReceiptSpec.kind_of r2).
  { pose proof (Tx _ _ _ _ T1 T2) as E. destruct r1, r2; try reflexivity; vm_compute in E; discriminate E. }
  assert (Sc : succeeded r1 = succeeded r2). { pose proof (field_fun _ _ _ _ S1 S2) as E. now injection E. }
  clear T1 T2 S1 S2. destruct r1 as [d1|s1|c1], r2 as [d2|s2|c2]; try discriminate K; clear K; cbn [succeeded view receipt_wf gas_of] in *.
  - destruct W1 as (V1 & L1 & W1). destruct W2 as (V2 & L2 & W2). unfold deploy_view. destruct d1 as [v1 b1 e1 a1 g1 l1], d2 as [v2 b2 e2 a2 g2 l2].
    cbn [dr_version dr_success dr_error dr_addr dr_gas_used dr_logs] in *. subst b2 v1 v2. destruct b1.
    + destruct W1 as (-> & (x1 & -> & X1) & _). destruct W2 as (-> & (x2 & -> & X2) & _). destruct R1 as (A1 & B1 & C1). destruct R2 as (A2 & B2 & C2).
      rewrite (Lg _ _ _ C1 C2), (Gs _ _ _ (B1 G1) (B2 G2)). rewrite (Hx _ _ _ _ (proj2 X1) (proj2 X2) (A1 _ eq_refl) (A2 _ eq_refl)). reflexivity.
    + destruct W1 as (x1 & -> & X1). destruct W2 as (x2 & -> & X2). cbn [option_map].
      rewrite (Er _ _ _ X1 X2 (R1 _ eq_refl) (R2 _ eq_refl)). reflexivity.
  - destruct W1 as (V1 & L1 & W1). destruct W2 as (V2 & L2 & W2). unfold spawn_view. destruct s1 as [v1 b1 e1 a1 i1 rd1 g1 t1 l1], s2 as [v2 b2 e2 a2 i2 rd2 g2 t2 l2].
    cbn [sr_version sr_success sr_error sr_account sr_init_state sr_returndata sr_gas_used sr_touched sr_logs] in *. subst b2 v1 v2. destruct b1.
    + destruct W1 as (-> & (x1 & -> & X1) & (y1 & -> & Y1) & (z1 & -> & Z1) & _ & U1). destruct W2 as (-> & (x2 & -> & X2) & (y2 & -> & Y2) & (z2 & -> & Z2) & _ & U2).
      destruct R1 as (A1 & B1 & C1 & D1 & E1 & F1). destruct R2 as (A2 & B2 & C2 & D2 & E2 & F2).
      rewrite (Lg _ _ _ F1 F2), (Tc _ _ _ U1 U2 E1 E2), (Gs _ _ _ (D1 G1) (D2 G2)).
      rewrite (Hx _ _ _ _ (proj2 X1) (proj2 X2) (A1 _ eq_refl) (A2 _ eq_refl)), (Hx _ _ _ _ (proj2 Y1) (proj2 Y2) (B1 _ eq_refl) (B2 _ eq_refl)),
        (Hx _ _ _ _ (proj2 Z1) (proj2 Z2) (C1 _ eq_refl) (C2 _ eq_refl)). reflexivity.
    + destruct W1 as (x1 & -> & X1). destruct W2 as (x2 & -> & X2). cbn [option_map]. destruct R1 as [R1 F1]. destruct R2 as [R2 F2].
      rewrite (Lg _ _ _ F1 F2), (Er _ _ _ X1 X2 (R1 _ eq_refl) (R2 _ eq_refl)). reflexivity.
  - destruct W1 as (V1 & L1 & W1). destruct W2 as (V2 & L2 & W2). unfold call_view. destruct c1 as [v1 b1 e1 i1 rd1 g1 t1 l1], c2 as [v2 b2 e2 i2 rd2 g2 t2 l2].
    cbn [cr_version cr_success cr_error cr_new_state cr_returndata cr_gas_used cr_touched cr_logs] in *. subst b2 v1 v2. destruct b1.
    + destruct W1 as (-> & (y1 & -> & Y1) & (z1 & -> & Z1) & _ & U1). destruct W2 as (-> & (y2 & -> & Y2) & (z2 & -> & Z2) & _ & U2).
      destruct R1 as (B1 & C1 & D1 & E1 & F1). destruct R2 as (B2 & C2 & D2 & E2 & F2).
      rewrite (Lg _ _ _ F1 F2), (Tc _ _ _ U1 U2 E1 E2), (Gs _ _ _ (D1 G1) (D2 G2)).
      rewrite (Hx _ _ _ _ (proj2 Y1) (proj2 Y2) (B1 _ eq_refl) (B2 _ eq_refl)), (Hx _ _ _ _ (proj2 Z1) (proj2 Z2) (C1 _ eq_refl) (C2 _ eq_refl)). reflexivity.
    + destruct W1 as (x1 & -> & X1). destruct W2 as (x2 & -> & X2). cbn [option_map]. destruct R1 as [R1 F1]. destruct R2 as [R2 F2].
      rewrite (Lg _ _ _ F1 F2), (Er _ _ _ X1 X2 (R1 _ eq_refl) (R2 _ eq_refl)). reflexivity.
Qed.
Print Assumptions C92_faithful_partial.
(** A program may log any bytes; the receipt with a log that is not UTF-8 cannot be shown. *)
Definition binary_log : receipt := RCall (mkCallReceipt 0 true None (Some (repeat 0 32)) (Some []) (Some 10) [] [[255]]).
Theorem C92_shows_refuted :
  ~ (forall r bs, receipt_wf r -> enc_receipt r = Some bs -> decode_receipt (data_doc bs) <> Panic).
Proof.
  intros H. assert (W : receipt_wf binary_log).
  { split; [reflexivity|]. split; [split; [vm_compute; discriminate|]; constructor; [|constructor]; split; [vm_compute; discriminate|apply bytes_okb_ok; reflexivity]|].
    cbn [cr_success]. split; [reflexivity|]. split; [eexists; split; [reflexivity|]; split; [reflexivity|apply bytes_okb_ok; reflexivity]|].
    split; [eexists; split; [reflexivity|]; split; [vm_compute; discriminate|constructor]|]. split; [split; reflexivity|].
    split; [vm_compute; discriminate|]. split; constructor. }
  destruct (enc_receipt binary_log) as [bs|] eqn:E; [|vm_compute in E; discriminate E]. apply (H binary_log bs W E).
  vm_compute in E. apply Some_inj in E. subst bs. vm_compute. reflexivity.
Qed.
Print Assumptions C92_shows_refuted.
Definition ex_receipt : receipt :=
  RSpawn (mkSpawnReceipt 0 true None (Some (repeat 16 20)) (Some (repeat 160 32)) (Some [16; 32; 48]) (Some 10) [repeat 16 20] [txt "Log entry #1"]).
Definition ex_failure : receipt :=
  RCall (mkCallReceipt 0 false (Some (FuncFailed (repeat 1 20) (repeat 2 20) (txt "f") (txt "boom"))) None None None [] [txt "Log entry #2"]).
Example C92_satisfiable :
  receipt_wf ex_receipt /\ text_logs (logs_of (view ex_receipt)) /\ small_gas (gas_of ex_receipt) /\
  receipt_wf ex_failure /\ text_logs (logs_of (view ex_failure)).
Proof.
  split; [|split; [|split; [|split]]].
  - split; [reflexivity|]. split; [split; [vm_compute; discriminate|]; constructor; [|constructor]; split; [vm_compute; discriminate|apply bytes_okb_ok; reflexivity]|].
    cbn [sr_success]. split; [reflexivity|]. split; [eexists; split; [reflexivity|]; split; [reflexivity|apply bytes_okb_ok; reflexivity]|].
    split; [eexists; split; [reflexivity|]; split; [reflexivity|apply bytes_okb_ok; reflexivity]|].
    split; [eexists; split; [reflexivity|]; split; [vm_compute; discriminate|apply bytes_okb_ok; reflexivity]|]. split; [split; reflexivity|].
    split; [vm_compute; discriminate|]. split; [constructor; [intros []|constructor]|]. constructor; [|constructor]. split; [reflexivity|apply bytes_okb_ok; reflexivity].
  - constructor; [reflexivity|constructor].
  - reflexivity.
  - split; [reflexivity|]. split; [split; [vm_compute; discriminate|]; constructor; [|constructor]; split; [vm_compute; discriminate|apply bytes_okb_ok; reflexivity]|].
    eexists. split; [reflexivity|]. split; [split; [reflexivity|apply bytes_okb_ok; reflexivity]|]. split; [split; [reflexivity|apply bytes_okb_ok; reflexivity]|].
    split; [split; [split; [vm_compute; discriminate|apply bytes_okb_ok; reflexivity]|reflexivity]|]. split; [apply bytes_okb_ok; reflexivity|]. split; reflexivity.
  - constructor; [reflexivity|constructor].
Qed.
(** Every document that a decoder answers has its names in the order of their bytes, each once,
    so its text is determined by its fields. *)
Theorem C92_order :
  (forall j d, decode_receipt j = Ok d -> ordered d) /\
  (forall j d, decode_call j = Ok d -> ordered d) /\
  (forall j d, decode_spawn j = Ok d -> ordered d) /\
  (forall j d, decode_inputdata j = Ok d -> ordered d).
Proof.
  assert (D : forall l, (fix go (l : list bytes) : bool := match l with a :: ((b :: _) as l') => name_ltb a b && go l' | _ => true end) l = true -> in_order l).
  { induction l as [|a l IH]; [easy|]. destruct l as [|b l]; [easy|]. intros H. apply andb_true_iff in H. destruct H as [H1 H2].
    split; [now apply name_ltb_precedes|]. now apply IH. }
  assert (R : forall bs d, calldata_to_json bs = Ok d -> ordered d).
  { intros bs d H. unfold calldata_to_json in H. apply bind_ok in H. destruct H as ([a b] & _ & H). injection H as <-.
    eexists. split; [reflexivity|]. apply D. reflexivity. }
  split; [|split; [|split]].
  - intros j d H. unfold decode_receipt in H. apply bind_ok in H. destruct H as (bs & _ & H). apply bind_ok in H. destruct H as (u & _ & H).
    destruct (decode_bytes dec_receipt bs) as [r|e|]; try discriminate H. apply unwrap_ok in H. destruct (receipt_success r).
    + destruct r as [r|r|r]; unfold deploy_to_json, spawn_to_json, call_to_json in H;
        repeat (match type of H with obind ?o _ = Some _ => destruct o; [|discriminate H]; cbn [obind] in H end);
        apply Some_inj in H; subst d; eexists; (split; [reflexivity|]); apply D; reflexivity.
    + destruct (receipt_error r) as [e|]; [|discriminate H]. cbn [obind] in H. unfold decode_error_json in H.
      destruct (logs_to_json (receipt_logs r)); [|discriminate H]. cbn [obind] in H. apply Some_inj in H. subst d. eexists. split; [reflexivity|].
      do 3 apply insert_in_order. apply D. destruct e; reflexivity.
  - intros j d H. unfold decode_call in H. apply bind_ok in H. destruct H as (bs & _ & H). destruct (decode_bytes dec_transaction bs) as [t|e|]; try discriminate H.
    do 4 (apply bind_ok in H; destruct H as (? & _ & H)). injection H as <-. eexists. split; [reflexivity|]. apply D. reflexivity.
  - intros j d H. unfold decode_spawn in H. apply bind_ok in H. destruct H as (bs & _ & H). destruct (decode_bytes dec_spawn bs) as [t|e|]; try discriminate H.
    apply bind_ok in H. destruct H as (? & _ & H). injection H as <-. eexists. split; [reflexivity|]. apply D. reflexivity.
  - intros j d H. unfold decode_inputdata in H. apply bind_ok in H. destruct H as (bs & _ & H). exact (R _ _ H).
Qed.
Print Assumptions C92_order.
Example C92_order_satisfiable :
  (exists bs d, enc_receipt ex_failure = Some bs /\ decode_receipt (data_doc bs) = Ok d) /\
  in_order [txt "err_type"; txt "func"; txt "type"] /\ ~ in_order [txt "type"; txt "func"].
Proof.
  split; [|split].
  - exists (match enc_receipt ex_failure with Some bs => bs | None => [] end).
    exists (match decode_receipt (data_doc (match enc_receipt ex_failure with Some bs => bs | None => [] end)) with Ok d => d | _ => JNull end).
    split; vm_compute; reflexivity.
  - split; [left; exists [], 101, 102; eexists; eexists; repeat split|]. split; [left; exists [], 102, 116; eexists; eexists; repeat split|exact I].
  - intros [[(p & x & y & a & b & E1 & E2 & L)|(y & b & E)] _]; [|discriminate E].
    destruct p as [|z p]; [injection E1 as <- _; injection E2 as <- _; discriminate L|]. injection E1 as <- _. discriminate E2.
Qed.

(** ** C93 Decoding untrusted documents *)
(** A document without bytes in "data" is reported by the four decoders, and so are bytes that
    are not a transaction by [decode_call].  Missing: other bytes. *)
Theorem C93_reports_partial :
  (forall j, (forall s bs, field "data" j (JStr s) -> ~ spelled s bs) ->
     (exists e, decode_inputdata j = Err e) /\ (exists e, decode_call j = Err e) /\
     (exists e, decode_spawn j = Err e) /\ (exists e, decode_receipt j = Err e)) /\
  (forall j s bs e, field "data" j (JStr s) -> spelled s bs -> dec_transaction bs = Err e -> exists e', decode_call j = Err e').
Proof.
  split.
  - intros j N. destruct (get_field_err hex_of_json j "data") as [[a E]|[e E]].
    + exfalso. apply get_field_ok in E. destruct E as (v & F & H). destruct v; try discriminate H. apply unhex_spelled in H. exact (N _ _ F H).
    + unfold decode_inputdata, decode_call, decode_spawn, decode_receipt. rewrite E. cbn [bind]. repeat split; eauto.
  - intros j s bs e F S D. unfold decode_call.
    rewrite (proj2 (get_field_ok hex_of_json j "data" bs)) by (exists (JStr s); split; [exact F|]; now apply unhex_spelled).
    cbn [bind]. unfold decode_bytes. rewrite D. cbn [bind]. eauto.
Qed.
Print Assumptions C93_reports_partial.
(** Each of the four aborts on some bytes: unknown markers in the input data of a transaction,
    anything that is not a spawn or a receipt. *)
Theorem C93_reports_refuted :
  ~ (forall bs, bytes_ok bs -> decode_inputdata (data_doc bs) <> Panic) /\
  ~ (forall bs, bytes_ok bs -> decode_call (data_doc bs) <> Panic) /\
  ~ (forall bs, bytes_ok bs -> decode_spawn (data_doc bs) <> Panic) /\
  ~ (forall bs, bytes_ok bs -> decode_receipt (data_doc bs) <> Panic).
Proof.
  split; [intros H; apply (H [80]); [apply bytes_okb_ok|]; reflexivity|].
  split; [intros H; apply (H (repeat 0 23 ++ [1; 80; 0])); [apply bytes_okb_ok|]; reflexivity|].
  split; [intros H; apply (H []); [apply bytes_okb_ok|]; reflexivity|].
  intros H; apply (H []); [apply bytes_okb_ok|]; reflexivity.
Qed.
Print Assumptions C93_reports_refuted.
Example C93_satisfiable :
  (forall s bs, field "data" (JObj [(txt "data", JStr (txt "0g"))]) (JStr s) -> ~ spelled s bs) /\
  field "data" (data_doc [1; 2]) (JStr (txt "0102")) /\ spelled (txt "0102") [1; 2] /\ (exists e, dec_transaction [1; 2] = Err e).
Proof.
  split; [|split; [eexists; split; reflexivity|split; [apply unhex_spelled; reflexivity|eexists; reflexivity]]].
  intros s bs (f & [= <-] & E) S. cbn in E. injection E as <-. apply unhex_spelled in S. discriminate S.
Qed.
(** When a function complains about a document, the complaint is true: a field it calls missing
    is missing, and a field it calls invalid is there and cannot be read. *)
Theorem C93_blame :
  (forall j e, encode_call j = Err e \/ encode_call_raw j = Err e ->
     blames ["version"; "target"; "func_name"; "verifydata"; "calldata"]%string acceptable j e) /\
  (forall j e, encode_spawn j = Err e ->
     blames ["version"; "template"; "name"; "ctor_name"; "calldata"]%string acceptable j e) /\
  (forall j e, encode_inputdata j = Err e -> blames ["abi"; "data"]%string (acceptable_input j) j e) /\
  (forall j e, decode_inputdata j = Err e \/ decode_spawn j = Err e \/ decode_receipt j = Err e -> blames ["data"]%string acceptable_bytes j e) /\
  (forall j e, decode_call j = Err e -> blames ["data"]%string acceptable_bytes j e \/
     e = InvalidWhole /\ exists s bs e', field "data" j (JStr s) /\ spelled s bs /\ dec_transaction bs = Err e').
Proof.
  assert (C : forall j e, encode_call_raw j = Err e -> blames ["version"; "target"; "func_name"; "verifydata"; "calldata"]%string acceptable j e).
  { intros j e H. unfold encode_call_raw in H.
    apply bind_err in H. destruct H as [H|(version & _ & H)]; [refine (get_field_blames _ _ _ _ _ _ _ u16_good H); cbn; auto 10|].
    apply bind_err in H. destruct H as [H|(target & _ & H)]; [refine (get_field_blames _ _ _ _ _ _ _ (fun v => address_good v _ _) H); cbn; auto 10|].
    apply bind_err in H. destruct H as [H|(f & _ & H)]; [refine (get_field_blames _ _ _ _ _ _ _ (fun v => string_good v _ _) H); cbn; auto 10|].
    apply bind_err in H. destruct H as [H|(v & _ & H)]; [refine (get_field_blames _ _ _ _ _ _ _ (fun v => arg_good v _ _) H); cbn; auto 10|].
    apply bind_err in H. destruct H as [H|(vb & _ & H)]; [destruct (arg_encode_err _ _ H)|].
    apply bind_err in H. destruct H as [H|(c & _ & H)]; [refine (get_field_blames _ _ _ _ _ _ _ (fun v => arg_good v _ _) H); cbn; auto 10|].
    apply bind_err in H. destruct H as [H|(cb & _ & H)]; [destruct (arg_encode_err _ _ H)|]. destruct (unwrap_err _ _ H). }
  split; [|split; [|split; [|split]]].
  - intros j e [H|H]; [|exact (C _ _ H)]. unfold encode_call in H. apply bind_err in H. destruct H as [H|(bs & _ & H)]; [exact (C _ _ H)|discriminate H].
  - intros j e H. unfold encode_spawn in H.
    apply bind_err in H. destruct H as [H|(version & _ & H)]; [refine (get_field_blames _ _ _ _ _ _ _ u16_good H); cbn; auto 10|].
    apply bind_err in H. destruct H as [H|(target & _ & H)]; [refine (get_field_blames _ _ _ _ _ _ _ (fun v => address_good v _ _) H); cbn; auto 10|].
    apply bind_err in H. destruct H as [H|(f & _ & H)]; [refine (get_field_blames _ _ _ _ _ _ _ (fun v => string_good v _ _) H); cbn; auto 10|].
    apply bind_err in H. destruct H as [H|(g & _ & H)]; [refine (get_field_blames _ _ _ _ _ _ _ (fun v => string_good v _ _) H); cbn; auto 10|].
    apply bind_err in H. destruct H as [H|(c & _ & H)]; [refine (get_field_blames _ _ _ _ _ _ _ (fun v => arg_good v _ _) H); cbn; auto 10|].
    apply bind_err in H. destruct H as [H|(cb & _ & H)]; [destruct (arg_encode_err _ _ H)|]. destruct (unwrap_err _ _ H).
  - intros j e H. unfold encode_inputdata in H. apply bind_err in H. destruct H as [H|(i & _ & H)].
    2:{ apply bind_err in H. destruct H as [H|(bs & _ & H)]; [destruct (expect_err _ _ H)|discriminate H]. }
    unfold input_new in H. apply bind_err in H. destruct H as [H|(abi & Ha & H)].
    { refine (get_field_blames _ _ _ _ _ _ _ _ H); [cbn; auto 10|]. intros v [G _]. destruct (G eq_refl) as (a & ts & -> & S). exists ts. apply sigs_spec. eauto. }
    apply bind_err in H. destruct H as [H|(data & Hd & H)].
    { refine (get_field_blames _ _ _ _ _ _ _ _ H); [cbn; auto 10|]. intros v [_ G]. destruct (G eq_refl) as (ds & -> & _). exists ds. now apply docs_spec. }
    destruct (nlen abi =? nlen data) eqn:E; [discriminate H|]. injection H as <-.
    apply get_field_ok in Ha. destruct Ha as (va & Fa & Ha). apply sigs_spec in Ha. destruct Ha as (l & -> & S).
    apply get_field_ok in Hd. destruct Hd as (vd & Fd & Hd). apply docs_spec in Hd. subst vd.
    exists "data"%string, (JArr data). split; [cbn; auto 10|]. split; [reflexivity|]. split; [exact Fd|]. intros [_ G].
    destruct (G eq_refl) as (ds & [= <-] & L). specialize (L _ Fa). apply N.eqb_neq in E. apply E. apply Forall2_len in S. unfold nlen. lia.
  - intros j e [H|[H|H]].
    + apply bind_err in H. destruct H as [H|(bs & _ & H)]; [refine (get_field_blames _ _ _ _ _ _ _ hex_good H); cbn; auto 10|]. destruct (calldata_err _ _ H).
    + apply bind_err in H. destruct H as [H|(bs & _ & H)]; [refine (get_field_blames _ _ _ _ _ _ _ hex_good H); cbn; auto 10|].
      destruct (decode_bytes dec_spawn bs); try discriminate H. apply bind_err in H. destruct H as [H|(c & _ & H)]; [destruct (calldata_err _ _ H)|discriminate H].
    + apply bind_err in H. destruct H as [H|(bs & _ & H)]; [refine (get_field_blames _ _ _ _ _ _ _ hex_good H); cbn; auto 10|].
      apply bind_err in H. destruct H as [H|(u & _ & H)]; [destruct (unwrap_err _ _ H)|].
      destruct (decode_bytes dec_receipt bs); try discriminate H. destruct (unwrap_err _ _ H).
  - intros j e H. apply bind_err in H. destruct H as [H|(bs & Hb & H)]; [left; refine (get_field_blames _ _ _ _ _ _ _ hex_good H); cbn; auto 10|].
    destruct (decode_bytes dec_transaction bs) as [t|e'|] eqn:E; try discriminate H.
    + exfalso. apply bind_err in H. destruct H as [H|(v & _ & H)]; [destruct (calldata_err _ _ H)|].
      apply bind_err in H. destruct H as [H|(vi & _ & H)]; [destruct (expect_err _ _ H)|].
      apply bind_err in H. destruct H as [H|(c & _ & H)]; [destruct (calldata_err _ _ H)|].
      apply bind_err in H. destruct H as [H|(ci & _ & H)]; [destruct (expect_err _ _ H)|discriminate H].
    + injection H as <-. right. split; [reflexivity|]. apply get_field_ok in Hb. destruct Hb as (v & F & S). destruct v as [| | | |s| |]; try discriminate S.
      apply unhex_spelled in S. exists s, bs. unfold decode_bytes in E. apply bind_err in E. destruct E as [E|([? ?] & _ & E)]; [eauto|discriminate E].
Qed.
Print Assumptions C93_blame.
Example C93_blame_satisfiable :
  encode_call (JObj [(txt "version", JNum 65536)]) = Err (InvalidField (txt "version")) /\
  encode_spawn (JObj [(txt "version", JNum 0); (txt "template", JStr (hex_upper (repeat 7 20)))]) = Err (MissingField (txt "name")) /\
  encode_inputdata (JObj [(txt "abi", JArr [JStr (txt "u8")]); (txt "data", JArr [])]) = Err (InvalidField (txt "data")) /\
  decode_receipt (JArr []) = Err NotAnObject /\ decode_call (data_doc [1; 2]) = Err InvalidWhole.
Proof. repeat split. Qed.
