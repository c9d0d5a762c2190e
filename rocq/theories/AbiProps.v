(** Property theorems for the ABI. *)
From Coq Require Import List NArith ZArith Arith Bool Lia ZifyBool ZifyNat ZifyN.
From Verif Require Import Base SdkModel SdkSpec SdkProofs AbiModel AbiSpec AbiProofs.
Import ListNotations.
Open Scope list_scope.
Open Scope N_scope.

(** ** C41 ABI value round trip *)
(** The encoder writes the documented format, and aborts only for want of room. *)
Theorem C41_format :
  forall v, flat v ->
  (forall e, encodes v e <-> e = format v) /\
  (forall cap, (exists w, encode_value v (vec_with_capacity cap) = Some w) <-> nlen (format v) <= cap).
Proof.
  intros v F. pose proof (appends_value v F) as A. split; [|now apply appends_fits]. intros e. split.
  - intros (cap & w & E & S). rewrite (appends_new _ _ A cap w E) in S. congruence.
  - intros ->. destruct (proj2 (appends_fits _ _ A (nlen (format v)))) as [w E]; [lia|]. exists (nlen (format v)), w. split; [exact E|].
    now apply (appends_new _ _ A (nlen (format v))).
Qed.
Print Assumptions C41_format.
(** Decoding the encoding of a value, wherever it stands in a buffer, returns the value and
    leaves the cursor right behind it.  Missing: arrays of eight elements. *)
Theorem C41_round_trip_partial :
  forall v e, flat v -> ~ array_of_eight v -> encodes v e ->
  forall before after,
  decode_value (mkCursor (before ++ e ++ after) (nlen before)) =
    Ok (v, mkCursor (before ++ e ++ after) (nlen before + nlen e)).
Proof.
  intros v e F N8 E before after. apply (proj1 (C41_format v F)) in E. subst e.
  pose proof (decode_value_ok v before after F N8) as D. unfold at_ in D. rewrite D. now rewrite nlen_app, <- app_assoc.
Qed.
Print Assumptions C41_round_trip_partial.
(** No encoding is the beginning of another one: what follows it does not change its meaning. *)
Theorem C41_prefix_free :
  forall v1 v2 e1 e2 rest1 rest2, flat v1 -> flat v2 -> encodes v1 e1 -> encodes v2 e2 ->
  e1 ++ rest1 = e2 ++ rest2 -> v1 = v2 /\ rest1 = rest2.
Proof.
  intros v1 v2 e1 e2 rest1 rest2 F1 F2 E1 E2 X. apply (proj1 (C41_format v1 F1)) in E1. apply (proj1 (C41_format v2 F2)) in E2. subst e1 e2.
  now apply format_split.
Qed.
Print Assumptions C41_prefix_free.
(** An array of eight elements is encoded, and decoding it aborts: its marker, 7, is taken
    for the capacity of the result. *)
Definition eight : value := VVec (repeat (VPrim (PBool true)) 8).
Theorem C41_eight_refuted :
  ~ (forall v e, flat v -> encodes v e -> decode_value (mkCursor e 0) = Ok (v, mkCursor e (nlen e))).
Proof.
  intros H.
  assert (F : flat eight).
  { split; [vm_compute; discriminate|]. unfold eight. cbn [repeat]. repeat constructor; eexists; split; reflexivity || exact Logic.I. }
  specialize (H eight (format eight) F (proj2 (proj1 (C41_format eight F) _) eq_refl)).
  vm_compute in H. discriminate H.
Qed.
Print Assumptions C41_eight_refuted.
(** This happens to every array of eight elements, and to these values only. *)
Theorem C41_eight :
  forall v e, flat v -> encodes v e ->
  forall before after,
  decode_value (mkCursor (before ++ e ++ after) (nlen before)) = Panic <-> array_of_eight v.
Proof.
  intros v e F E before after. apply (proj1 (C41_format v F)) in E. subst e. destruct (eight_dec v) as [N8|N8].
  - pose proof (decode_value_eight v before after F N8) as D. unfold at_ in D. tauto.
  - pose proof (decode_value_ok v before after F N8) as D. unfold at_ in D. rewrite D. split; [discriminate|tauto].
Qed.
Print Assumptions C41_eight.
Example C41_satisfiable :
  let v := VVec [VPrim (PInt I16 (-2)); VPrim (PAmount 300); VPrim PNone] in
  flat v /\ ~ array_of_eight v /\ format v = [54; 50; 255; 254; 17; 1; 44; 32] /\ encodes v (format v) /\
  (* a nested array is encoded, and decoding it aborts *)
  encodes (VVec [VVec []]) [22; 6] /\ decode_value (mkCursor [22; 6] 0) = Panic.
Proof.
  split.
  { split; [vm_compute; discriminate|]. repeat constructor; eexists; (split; [reflexivity|]); cbn; unfold in_range; cbn; lia. }
  split; [discriminate|]. split; [reflexivity|]. split; [|split; [|reflexivity]].
  - exists 20. eexists. split; reflexivity.
  - exists 20. eexists. split; reflexivity.
Qed.

(** ** C42 ABI calldata sequences *)
(** Iterating over values encoded one after the other yields these values, then ends.
    Missing: arrays of eight elements. *)
Theorem C42_iterate_partial :
  forall vs cap w e, Forall flat vs -> Forall (fun v => ~ array_of_eight v) vs ->
  encode_values vs (vec_with_capacity cap) = Some w -> vec_as_slice w = Some e ->
  exists c, next_values (length vs) (calldata_new e) = Some (vs, c) /\ calldata_next c = Some None.
Proof.
  intros vs cap w e F N8 E S. rewrite (appends_new _ _ (appends_values vs F) cap w E) in S. injection S as <-.
  pose proof (next_values_ok vs [] [] F N8) as X. rewrite app_nil_r in X. eexists. split; [exact X|]. apply next_end.
Qed.
Print Assumptions C42_iterate_partial.
(** Different values, however many, are never encoded to the same bytes. *)
Theorem C42_injective :
  forall vs1 vs2 cap1 cap2 w1 w2 e, Forall flat vs1 -> Forall flat vs2 ->
  encode_values vs1 (vec_with_capacity cap1) = Some w1 -> vec_as_slice w1 = Some e ->
  encode_values vs2 (vec_with_capacity cap2) = Some w2 -> vec_as_slice w2 = Some e -> vs1 = vs2.
Proof.
  intros vs1 vs2 cap1 cap2 w1 w2 e F1 F2 E1 S1 E2 S2. rewrite (appends_new _ _ (appends_values vs1 F1) cap1 w1 E1) in S1.
  rewrite (appends_new _ _ (appends_values vs2 F2) cap2 w2 E2) in S2. apply formats_inj; auto. congruence.
Qed.
Print Assumptions C42_injective.
(** The arguments of a call, of any types, are read back by [next_1] to [next_6] with the
    same types.  Missing: arrays of eight elements. *)
Theorem C42_typed_partial :
  forall ts rs cap w e, Forall2 typed ts rs -> Forall (fun r => forall l, r = RArray l -> nlen l <> 8) rs ->
  encode_tuple rs (vec_with_capacity cap) = Some w -> vec_as_slice w = Some e ->
  exists c, next_tuple ts (calldata_new e) = Some (rs, c) /\ calldata_next c = Some None.
Proof.
  intros ts rs cap w e F N8 E S. rewrite (appends_new _ _ (appends_tuple ts rs F) cap w E) in S. injection S as <-.
  assert (N8' : Forall (fun r => ~ array_of_eight (rust_value r)) rs).
  { eapply Forall_impl; [|exact N8]. intros r H X. destruct r as [|p|[p|]|l]; try contradiction X. apply (H l eq_refl).
    cbn in X. unfold nlen in *. now rewrite map_length in X. }
  pose proof (next_tuple_ok ts rs [] [] F N8') as X. rewrite app_nil_r in X. eexists. split; [exact X|]. apply next_end.
Qed.
Print Assumptions C42_typed_partial.
Theorem C42_eight_refuted :
  ~ (forall vs cap w e, Forall flat vs -> encode_values vs (vec_with_capacity cap) = Some w -> vec_as_slice w = Some e ->
     exists c, next_values (length vs) (calldata_new e) = Some (vs, c)).
Proof.
  intros H. destruct (H [eight] 20 (mkVec 9 20 (map Some (format eight) ++ repeat None 11)) (format eight)) as [c E].
  - constructor; [|constructor]. split; [vm_compute; discriminate|]. unfold eight. cbn [repeat]. repeat constructor; eexists; split; reflexivity || exact Logic.I.
  - reflexivity.
  - reflexivity.
  - vm_compute in E. discriminate E.
Qed.
Print Assumptions C42_eight_refuted.
(** Among the values of a call, one array of eight elements is enough. *)
Theorem C42_eight :
  forall vs cap w e, Forall flat vs -> encode_values vs (vec_with_capacity cap) = Some w -> vec_as_slice w = Some e ->
  next_values (length vs) (calldata_new e) = None <-> Exists array_of_eight vs.
Proof.
  intros vs cap w e F E S. rewrite (appends_new _ _ (appends_values vs F) cap w E) in S. injection S as <-.
  destruct (Exists_dec array_of_eight vs eight_dec) as [X|X].
  - pose proof (next_values_eight vs [] [] F X) as D. rewrite app_nil_r in D. split; [auto|]. intros _. exact D.
  - apply Forall_Exists_neg in X. pose proof (next_values_ok vs [] [] F X) as D. rewrite app_nil_r in D. cbn [app] in D.
    split; [|intros Y; apply Exists_exists in Y as (v & Iv & Y); rewrite Forall_forall in X; destruct (X v Iv Y)]. intros Z. unfold calldata_new in Z. unfold at_ in D. cbn [app] in D.
    change (nlen (@nil N)) with 0 in D. rewrite Z in D. discriminate D.
Qed.
Print Assumptions C42_eight.
Example C42_satisfiable :
  let ts := [YPrim (YInt U32); YOption YBool; YArray (YInt I8) 2; YUnit] in
  let rs := [RPrim (PInt U32 70000); ROption None; RArray [PInt I8 (-1); PInt I8 5]; RUnit] in
  Forall2 typed ts rs /\ (exists w e, encode_tuple rs (vec_with_capacity 40) = Some w /\ vec_as_slice w = Some e /\
    e = [99; 1; 17; 112; 32; 38; 2; 255; 2; 5; 48]).
Proof.
  split.
  - constructor; [split; [unfold prim_ok, in_range; cbn; lia|eexists; reflexivity]|]. constructor; [exact Logic.I|].
    constructor; [split; [reflexivity|]; split; [vm_compute; discriminate|];
      constructor; [|constructor; [|constructor]]; (split; [unfold prim_ok, in_range; cbn; lia|eexists; reflexivity])|].
    constructor; [exact Logic.I|constructor].
  - eexists. eexists. split; [vm_compute; reflexivity|]. split; vm_compute; reflexivity.
Qed.

(** ** C43 ABI size announcements are exact *)
(** The announced size of values other than arrays is the length of what is written.
    Missing: arrays. *)
Theorem C43_byte_size_partial :
  forall ts rs cap w e, Forall2 typed ts rs -> Forall (fun r => ~ is_array r) rs ->
  encode_tuple rs (vec_with_capacity cap) = Some w -> vec_as_slice w = Some e ->
  tuple_byte_size rs = Some (nlen e).
Proof.
  intros ts rs cap w e F A E S. rewrite (appends_new _ _ (appends_tuple ts rs F) cap w E) in S. injection S as <-.
  destruct (tuple_size_defined rs A) as [n En]. rewrite En. f_equal. eapply tuple_size; eauto.
Qed.
Print Assumptions C43_byte_size_partial.
(** A vector with the announced maximal size has room for any value of the type, arrays
    included, and what is written is not longer. *)
Theorem C43_max_byte_size :
  forall ts rs, Forall2 typed ts rs ->
  exists w e, encode_tuple rs (vec_with_capacity (tuple_max_byte_size ts)) = Some w /\ vec_as_slice w = Some e /\
    nlen e <= tuple_max_byte_size ts.
Proof.
  intros ts rs F. pose proof (appends_tuple ts rs F) as A. pose proof (tuple_max ts rs F) as L.
  destruct (proj2 (appends_fits _ _ A _) L) as [w E]. exists w, (flat_map format (map rust_value rs)).
  split; [exact E|]. split; [|exact L]. exact (appends_new _ _ A _ w E).
Qed.
Print Assumptions C43_max_byte_size.
(** The announced maximum is the least possible: every tuple of types has values that need all of it. *)
Definition abi_lengths_ok (t : aty) : Prop := match t with YArray _ n => n <= 10 | _ => True end.
Definition longest_prim (t : pty) : primitive :=
  match t with
  | YBool => PBool true
  | YAmount => PAmount (2 ^ 64 - 1)
  | YAddress => PAddress (repeat 0 20)
  | YInt t => PInt t (if ity_signed t then -1 else 2 ^ ity_bits t - 1)
  end.
Lemma longest_typed t : prim_typed t (longest_prim t) /\ nlen (prim_format (longest_prim t)) = prim_max_byte_size t.
Proof.
  destruct t as [| | |t]; cbn [longest_prim].
  - split; [split; [exact Logic.I|eexists; reflexivity]|reflexivity].
  - split; [split; [unfold prim_ok; reflexivity|eexists; reflexivity]|vm_compute; reflexivity].
  - split; [split; [split; [apply Forall_forall; intros x Hx; apply repeat_spec in Hx; subst; reflexivity|reflexivity]|eexists; reflexivity]|reflexivity].
  - split; [|destruct t; vm_compute; reflexivity].
    split; [|eexists; reflexivity]. unfold prim_ok. tables. destruct t; cbn [ity_signed ity_bits]; lia.
Qed.
Definition longest (t : aty) : rust :=
  match t with
  | YUnit => RUnit
  | YPrim t => RPrim (longest_prim t)
  | YOption t => ROption (Some (longest_prim t))
  | YArray t n => RArray (repeat (longest_prim t) (N.to_nat n))
  end.
Theorem C43_max_byte_size_least :
  forall ts, Forall abi_lengths_ok ts ->
  exists rs w e, Forall2 typed ts rs /\ encode_tuple rs (vec_with_capacity (tuple_max_byte_size ts)) = Some w /\ vec_as_slice w = Some e /\
    nlen e = tuple_max_byte_size ts
    /\ forall cap, cap < tuple_max_byte_size ts -> encode_tuple rs (vec_with_capacity cap) = None.
Proof.
  intros ts H. exists (map longest ts).
  assert (T : Forall2 typed ts (map longest ts) /\ nlen (flat_map format (map rust_value (map longest ts))) = tuple_max_byte_size ts).
  { induction H as [|t ts Ht _ [I1 I2]]; [split; [constructor|reflexivity]|].
    assert (X : typed t (longest t) /\ nlen (format (rust_value (longest t))) = max_byte_size t).
    { destruct t as [|t|t|t n]; cbn [longest typed rust_value format max_byte_size]; try (split; [exact Logic.I|reflexivity]); try apply longest_typed.
      destruct (longest_typed t) as [P1 P2]. cbn [abi_lengths_ok] in Ht. split.
      - unfold nlen. rewrite repeat_length. split; [lia|]. split; [exact Ht|]. apply Forall_forall. intros x Hx. apply repeat_spec in Hx. now subst.
      - rewrite nlen_cons, flat_map_prims. enough (forall k, nlen (flat_map prim_format (repeat (longest_prim t) k)) = prim_max_byte_size t * N.of_nat k) as ->.
        { rewrite N2Nat.id. lia. }
        induction k as [|k IH]; [cbn; lia|]. cbn [repeat flat_map]. rewrite nlen_app, IH, P2. lia. }
    destruct X as [X1 X2]. split; [now constructor|]. cbn [map flat_map]. rewrite nlen_app, I2, X2. reflexivity. }
  destruct T as [F L]. pose proof (appends_tuple ts _ F) as A.
  destruct (proj2 (appends_fits _ _ A (tuple_max_byte_size ts))) as [w E]; [lia|]. exists w, (flat_map format (map rust_value (map longest ts))).
  split; [exact F|]. split; [exact E|]. split; [exact (appends_new _ _ A _ w E)|]. split; [exact L|].
  intros cap Hc. destruct (encode_tuple (map longest ts) (vec_with_capacity cap)) as [w'|] eqn:E'; [|reflexivity].
  assert (X : exists w, encode_tuple (map longest ts) (vec_with_capacity cap) = Some w) by eauto. apply (appends_fits _ _ A) in X. lia.
Qed.
Print Assumptions C43_max_byte_size_least.
(** Asking an array for its size always aborts. *)
Theorem C43_array_size_aborts : forall l, byte_size (RArray l) = None.
Proof. exact array_size_aborts. Qed.
Print Assumptions C43_array_size_aborts.
Theorem C43_byte_size_refuted :
  ~ (forall t r, typed t r -> exists n, byte_size r = Some n).
Proof.
  intros H. destruct (H (YArray YBool 2) (RArray [PBool true; PBool false])) as [n E]; [|discriminate E].
  split; [reflexivity|]. split; [discriminate|]. repeat constructor; eexists; reflexivity.
Qed.
Print Assumptions C43_byte_size_refuted.
Example C43_satisfiable :
  tuple_byte_size [RPrim (PInt I64 (-1)); ROption None] = Some 10 /\
  tuple_max_byte_size [YPrim (YInt I64); YOption YAddress; YArray (YInt U16) 3] = 40.
Proof. split; reflexivity. Qed.

(** ** C76 Decoding arbitrary calldata *)
(** Whatever the bytes, a decoded value is one that exists: numbers in the range of their
    type, addresses of 20 bytes, arrays of at most ten primitives.  The cursor advances and
    stays in the buffer. *)
Theorem C76_decoded_value :
  forall bs o v c, bytes_ok bs -> decode_value (mkCursor bs o) = Ok (v, c) ->
  flat v /\ cu_bytes c = bs /\ o < cu_offset c <= nlen bs.
Proof. intros bs o v c B E. destruct (decode_value_any (mkCursor bs o) v c B E) as [[A1 A2] F]. auto. Qed.
Print Assumptions C76_decoded_value.
(** Iterating ends: no buffer yields more values than it has bytes. *)
Theorem C76_iteration_ends :
  forall bs n vs c, bytes_ok bs -> next_values n (calldata_new bs) = Some (vs, c) ->
  N.of_nat n <= nlen bs /\ length vs = n /\ Forall flat vs.
Proof.
  intros bs n vs c B E. destruct (next_values_any n (calldata_new bs) vs c B) as ((M1 & M2) & L & F & O); [cbn; lia|exact E|].
  unfold calldata_new in *. cbn [cu_bytes cu_offset] in *. split; [lia|auto].
Qed.
Print Assumptions C76_iteration_ends.
Example C76_satisfiable :
  decode_value (mkCursor [99; 0; 7] 0) = Err NotEnoughBytes
  /\ (exists c, decode_value (mkCursor [83; 0; 7; 1] 0) = Ok (VPrim (PInt U32 7), c))
  /\ decode_value (mkCursor [80] 0) = Panic /\ calldata_next (calldata_new []) = Some None.
Proof. split; [reflexivity|]. split; [eexists; vm_compute; reflexivity|]. split; reflexivity. Qed.

(** ** C77 A value has one encoding *)
(** Refuted: a number is also accepted with leading zero bytes. *)
Theorem C77_unique_encoding_refuted :
  ~ (forall e1 e2 v, decode_value (mkCursor e1 0) = Ok (v, mkCursor e1 (nlen e1)) ->
       decode_value (mkCursor e2 0) = Ok (v, mkCursor e2 (nlen e2)) -> e1 = e2).
Proof. intros H. specialize (H [66; 5] [82; 0; 5] (VPrim (PInt U16 5)) eq_refl eq_refl). discriminate H. Qed.
Print Assumptions C77_unique_encoding_refuted.
(** What holds: the encoder itself writes one encoding of a value, and none that is accepted
    is shorter. *)
Theorem C77_encoder_is_minimal_partial :
  forall v e bs, flat v -> encodes v e -> bytes_ok bs ->
  decode_value (mkCursor bs 0) = Ok (v, mkCursor bs (nlen bs)) -> nlen e <= nlen bs.
Proof.
  intros v e bs F E B D. apply (proj1 (C41_format v F)) in E. subst e. exact (decode_value_min (mkCursor bs 0) v _ B D).
Qed.
Print Assumptions C77_encoder_is_minimal_partial.
Example C77_satisfiable :
  encodes (VPrim (PInt U16 5)) [66; 5] /\ decode_value (mkCursor [82; 0; 5] 0) = Ok (VPrim (PInt U16 5), mkCursor [82; 0; 5] 3).
Proof. split; [exists 2; eexists; split; reflexivity|reflexivity]. Qed.

(** ** C114 Calldata that was cut short *)
(** Decoding what is left of the encoding of a value after bytes at its end were lost is an
    error: never a value, and never an abort (not even for the arrays of eight elements of
    [C41_eight]: their eighth element is missing). *)
Theorem C114_truncated_value :
  forall v e kept lost before, flat v -> encodes v e -> e = kept ++ lost -> lost <> [] ->
  decode_value (mkCursor (before ++ kept) (nlen before)) =
    Err (match kept with [] => MissingTypeKind | _ => NotEnoughBytes end).
Proof.
  intros v e kept lost before F E X L. apply (proj1 (C41_format v F)) in E. subst e. exact (truncated_value v before kept lost F X L).
Qed.
Print Assumptions C114_truncated_value.
(** A contract that takes its arguments off calldata whose end is missing aborts: it never
    runs on arguments other than those that were sent, however many of them are complete. *)
Theorem C114_truncated_arguments :
  forall vs cap w e kept lost, Forall flat vs ->
  encode_values vs (vec_with_capacity cap) = Some w -> vec_as_slice w = Some e -> e = kept ++ lost -> lost <> [] ->
  next_values (length vs) (calldata_new kept) = None /\
  (forall ts, length ts = length vs -> next_tuple ts (calldata_new kept) = None).
Proof.
  intros vs cap w e kept lost F E S X L. rewrite (appends_new _ _ (appends_values vs F) cap w E) in S. injection S as S.
  assert (T : next_values (length vs) (calldata_new kept) = None).
  { apply (truncated_values vs [] kept lost F); [cbn [app] in S; congruence|exact L]. }
  split; [exact T|]. intros ts Ln. unfold next_tuple. now rewrite Ln, T.
Qed.
Print Assumptions C114_truncated_arguments.
Example C114_satisfiable :
  let v := VVec [VPrim (PInt I16 (-2)); VPrim (PAmount 300)] in
  flat v /\ ~ array_of_eight v /\ format v = [38; 50; 255; 254; 17; 1; 44] /\ encodes v (format v) /\
  decode_value (mkCursor [38; 50; 255; 254; 17; 1] 0) = Err NotEnoughBytes /\
  decode_value (mkCursor [38] 0) = Err NotEnoughBytes /\
  next_values 2 (calldata_new (format v ++ [50; 255])) = None /\ next_values 1 (calldata_new (format v ++ [50; 255])) <> None /\
  (let v8 := VVec (repeat (VPrim (PBool true)) 8) in
   flat v8 /\ array_of_eight v8 /\ decode_value (mkCursor (removelast (format v8)) 0) = Err NotEnoughBytes /\ decode_value (mkCursor (format v8) 0) = Panic).
Proof.
  split.
  { split; [vm_compute; discriminate|]. repeat constructor; eexists; (split; [reflexivity|]); cbn; unfold in_range; cbn; lia. }
  split; [discriminate|]. split; [reflexivity|]. split; [exists 20; eexists; split; reflexivity|]. do 4 (split; [try reflexivity; discriminate|]).
  split; [|repeat split; reflexivity]. split; [vm_compute; discriminate|]. repeat constructor; eexists; (split; [reflexivity|exact Logic.I]).
Qed.
