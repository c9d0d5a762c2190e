(** C122: the SDK without run-time checks. *)
From Coq Require Import String List NArith ZArith Arith Bool Lia.
From Coq Require Import ZifyBool ZifyNat ZifyN.
From Verif Require Import Base Text LayoutModel SdkModel SdkSpec SdkProofs BuildModel BuildSpec.
Import ListNotations.
Open Scope list_scope.
Open Scope N_scope.

Lemma short_inner_fits checks data safe : nlen data <= 8 -> short_inner checks data safe = new_short_inner data safe.
Proof.
  intros L. unfold short_inner, new_short_inner, debug_assert, ensure. replace (nlen data <=? 8) with true by lia.
  rewrite firstn_all2 by (unfold nlen in L; lia). destruct checks; reflexivity.
Qed.
Lemma byte_string_same checks b : byte_string checks b = from_byte b.
Proof. apply short_inner_fits. change (nlen [b]) with 1; lia. Qed.
Lemma short_string_fits checks data : nlen data <= 8 -> short_string checks data = new_short data.
Proof. apply short_inner_fits. Qed.
Lemma cells_length {A} (mem : list (option A)) : forall n l, cells mem n = Some l -> List.length l = n.
Proof.
  induction mem as [|c mem IH]; intros n l E; destruct n as [|n]; cbn in E; try discriminate E; try (injection E as <-; reflexivity).
  destruct c as [x|]; [|discriminate E]. destruct (cells mem n) as [r|] eqn:Er; cbn in E; [|discriminate E]. injection E as <-. cbn. f_equal. exact (IH _ _ Er).
Qed.
Lemma unchecked_same checks v : unchecked_string checks v = new_unchecked v.
Proof.
  unfold unchecked_string, new_unchecked. destruct (N.leb_spec (fv_len v) 8) as [L|]; [|reflexivity].
  destruct (vec_as_slice v) as [s|] eqn:E; [|reflexivity]. cbn [obind]. apply short_inner_fits.
  unfold vec_as_slice in E. apply cells_length in E. unfold nlen. lia.
Qed.
Lemma dec_digit_same checks d : d < 10 -> dec_digit checks d = dec_digit_string d.
Proof.
  intros L. unfold dec_digit, dec_digit_string, debug_assert, ensure, u8_op. replace (d <? 10) with true by lia. replace (d + 48 <? 256) with true by lia.
  destruct checks; cbn [obind]; apply byte_string_same.
Qed.
Lemma hex_digit_same checks d : d < 16 -> hex_digit checks d = hex_digit_string d.
Proof.
  intros L. unfold hex_digit, hex_digit_string, debug_assert, ensure. replace (d <? 16) with true by lia.
  destruct (N.ltb_spec d 10) as [L'|L']; [rewrite dec_digit_same by exact L'; destruct checks; reflexivity|].
  unfold u8_op. replace (d - 10 + 65 <? 256) with true by lia. cbn [obind]. rewrite byte_string_same. destruct checks; reflexivity.
Qed.
Lemma digits_loop_same checks digits used : Forall (fun d => d < 10) digits -> forall n k sb, digits_loop checks n k digits used sb = concat_loop n k digits used sb.
Proof.
  intros F. induction n as [|n IH]; intros k sb; cbn [digits_loop concat_loop]; [reflexivity|]. destruct (k <? used); [|reflexivity].
  destruct (nth_error digits _) as [d|] eqn:E; [|reflexivity]. cbn [obind]. apply nth_error_In in E. rewrite Forall_forall in F. rewrite dec_digit_same by auto.
  destruct (dec_digit_string d) as [s|]; [|reflexivity]. cbn [obind]. destruct (push_str sb s) as [sb'|]; [|reflexivity]. apply IH.
Qed.
Lemma digits_string_same checks digits used negative : Forall (fun d => d < 10) digits -> digits_string checks digits used negative = concat_digits digits used negative.
Proof.
  intros F. unfold digits_string, concat_digits. rewrite byte_string_same. destruct (if negative then _ else _) as [sb|]; [|reflexivity]. cbn [obind].
  rewrite digits_loop_same by exact F. destruct (concat_loop _ _ _ _ _); [|reflexivity]. apply unchecked_same.
Qed.
Lemma array_set_digits d : d < 10 -> forall a i r, Forall (fun d => d < 10) a -> array_set a i d = Some r -> Forall (fun d => d < 10) r.
Proof.
  intros L. induction a as [|x a IH]; intros i r F E; [destruct i; discriminate E|]. inversion_clear F as [|? ? F1 F2].
  destruct i as [|i]; cbn in E; [injection E as <-; constructor; auto|]. destruct (array_set a i d) as [r'|] eqn:Er; cbn in E; [|discriminate E].
  injection E as <-. constructor; [exact F1|exact (IH _ _ F2 Er)].
Qed.
Lemma number_loop_same checks : forall n value digits used negative, Forall (fun d => d < 10) digits ->
  number_loop checks n value digits used negative = num_loop n value digits used negative.
Proof.
  induction n as [|n IH]; intros value digits used negative F; [reflexivity|]. cbn [number_loop num_loop]. unfold next_digit.
  assert (L : value mod 10 < 10) by (apply N.mod_lt; discriminate).
  unfold debug_assert, ensure. replace (value mod 10 <? 10) with true by lia.
  replace (if checks then Some tt else Some tt) with (Some tt) by now destruct checks. cbn [obind].
  destruct (array_set digits (N.to_nat used) (value mod 10)) as [ds|] eqn:E; [|reflexivity]. cbn [obind]. pose proof (array_set_digits _ L _ _ _ F E) as F'.
  destruct (value / 10 =? 0); [|apply IH; exact F'].
  replace (if checks then Some tt else Some tt) with (Some tt) by now destruct checks. cbn [obind]. apply digits_string_same. exact F'.
Qed.
Lemma number_string_same checks n negative : number_string checks n negative = num_as_string n negative.
Proof. apply number_loop_same. apply Forall_forall. intros x I. apply repeat_spec in I. now subst x. Qed.
Lemma hex_loop_same checks : forall bs sb, bytes_ok bs -> hex_loop checks sb bs = push_hex sb bs.
Proof.
  induction bs as [|b bs IH]; intros sb B; [reflexivity|]. inversion_clear B as [|? ? B1 B2]. cbn [hex_loop push_hex].
  destruct (nibbles b B1) as [-> ->].
  assert (L1 : b / 16 < 16) by (apply N.div_lt_upper_bound; [discriminate|]; unfold is_byte in B1; lia).
  assert (L2 : b mod 16 < 16) by (apply N.mod_lt; discriminate).
  rewrite !hex_digit_same by assumption. destruct (hex_digit_string _) as [l|]; [|reflexivity]. cbn [obind]. destruct (push_str sb l) as [sb1|]; [|reflexivity]. cbn [obind].
  destruct (hex_digit_string (b mod 16)) as [r|]; [|reflexivity]. cbn [obind]. destruct (push_str sb1 r) as [sb2|]; [|reflexivity]. apply IH. exact B2.
Qed.

(** ** C122 Without run-time checks *)

(** Numbers, amounts and addresses are shown alike in both builds: this is what C46 and C47 say, for
    any build. *)
Theorem C122_unsigned : forall checks n, n < 2 ^ 64 -> exists t, numeral n t /\ shows (show_unsigned checks n) t.
Proof.
  intros checks n L. exists (decimal n). split; [apply decimal_numeral|]. unfold show_unsigned. rewrite number_string_same. apply (num_string_shows n false). unfold u64_max. lia.
Qed.
Print Assumptions C122_unsigned.
Theorem C122_signed :
  forall checks z, (- 2 ^ 63 <= z < 2 ^ 63)%Z ->
  exists t, numeral (Z.to_N (Z.abs z)) t /\ shows (show_signed checks z) ((if (z <? 0)%Z then txt "-" else []) ++ t).
Proof.
  intros checks z L. exists (decimal (Z.to_N (Z.abs z))). split; [apply decimal_numeral|]. unfold show_signed. rewrite number_string_same.
  pose proof (num_string_shows (Z.to_N (Z.abs z)) (z <? 0)%Z) as S. destruct (z <? 0)%Z; apply S; unfold u64_max; lia.
Qed.
Print Assumptions C122_signed.
Theorem C122_amount : forall checks n, n < 2 ^ 64 -> exists t, numeral n t /\ shows (show_amount checks n) (t ++ txt " coins").
Proof.
  intros checks n L. exists (decimal n). split; [apply decimal_numeral|].
  replace (show_amount checks n) with (amount_to_string n); [apply amount_shows; unfold u64_max; lia|].
  unfold show_amount, amount_to_string, show_unsigned, unsigned_to_string. rewrite number_string_same, short_string_fits by (vm_compute; discriminate).
  destruct (num_as_string n false) as [s|]; [|reflexivity]. cbn [obind]. destruct (push_str _ s) as [sb|]; [|reflexivity]. cbn [obind].
  destruct (new_short _) as [u|]; [|reflexivity]. cbn [obind]. destruct (push_str sb u) as [sb'|]; [|reflexivity]. symmetry. apply unchecked_same.
Qed.
Print Assumptions C122_amount.
Theorem C122_address :
  forall checks a, bytes_ok a -> List.length a = 20%nat ->
  exists t, shows (show_address checks a) (txt "0x" ++ t) /\ unhex t = Some a.
Proof.
  intros checks a B L. exists (hex_upper a). split; [|now apply unhex_hex_upper].
  replace (show_address checks a) with (address_to_string a); [now apply address_shows|].
  unfold show_address, address_to_string. rewrite short_string_fits by (vm_compute; discriminate).
  destruct (new_short _) as [u|]; [|reflexivity]. cbn [obind]. destruct (push_str _ u) as [sb|]; [|reflexivity]. cbn [obind].
  rewrite hex_loop_same by exact B. destruct (push_hex sb a) as [sb'|]; [|reflexivity]. symmetry. apply unchecked_same.
Qed.
Print Assumptions C122_address.
(** Layers of up to 18 digits likewise; longer ones abort in both builds. *)
Theorem C122_layer :
  forall checks n, n < 2 ^ 64 ->
  (n < 10 ^ 18 -> exists t, numeral n t /\ shows (show_layer checks n) (txt "[Layer " ++ t ++ txt "]"))
  /\ (10 ^ 18 <= n -> show_layer checks n = None).
Proof.
  intros checks n L. replace (show_layer checks n) with (layer_to_string n).
  - split; [|intros L'; apply layer_aborts; [unfold u64_max; lia|exact L']]. intros L'. exists (decimal n). split; [apply decimal_numeral|now apply layer_shows].
  - unfold show_layer, layer_to_string, show_unsigned, unsigned_to_string. rewrite number_string_same, short_string_fits by (vm_compute; discriminate).
    destruct (num_as_string n false) as [s|]; [|reflexivity]. cbn [obind].
    destruct (new_short _) as [u|]; [|reflexivity]. cbn [obind]. destruct (push_str _ u) as [sb|]; [|reflexivity]. cbn [obind].
    destruct (push_str _ s) as [sb1|]; [|reflexivity]. cbn [obind]. rewrite byte_string_same. destruct (from_byte 93) as [c|]; [|reflexivity]. cbn [obind].
    destruct (push_str sb1 c) as [sb2|]; [|reflexivity]. symmetry. apply unchecked_same.
Qed.
Print Assumptions C122_layer.

(** A short string of at most eight bytes is the same in both builds; with more bytes the checked build
    aborts, and the other one makes, if the first eight are ASCII, a string that can only abort. *)
Theorem C122_short :
  forall checks t, Forall (fun b => b < 256) t ->
  (nlen t <= 8 -> is_ascii t -> shows (short_string checks t) t)
  /\ (nlen t <= 8 -> ~ is_ascii t -> short_string checks t = None)
  /\ (8 < nlen t -> short_string true t = None)
  /\ (8 < nlen t -> is_ascii (firstn 8 t) -> exists s, short_string false t = Some s /\ useless s)
  /\ (8 < nlen t -> ~ is_ascii (firstn 8 t) -> short_string false t = None).
Proof.
  intros checks t B. split; [|split; [|split; [|split]]].
  - intros L A. rewrite short_string_fits by exact L. now apply new_short_shows.
  - intros L A. rewrite short_string_fits by exact L. unfold new_short, new_short_inner, ensure. replace (nlen t <=? 8) with true by lia. cbn [obind].
    rewrite all_ascii_not; [reflexivity|exact B|exact A].
  - intros L. unfold short_string, short_inner, debug_assert, ensure. replace (nlen t <=? 8) with false by lia. reflexivity.
  - intros L A. assert (Lf : nlen (firstn 8 t) = 8) by (unfold nlen in *; rewrite firstn_length; lia).
    pose proof (all_ascii_ok (firstn 8 t) A) as Ea.
    eexists. unfold short_string, short_inner, debug_assert. rewrite Ea. cbn [obind]. split; [reflexivity|].
    assert (U : string_bytes (Short (firstn 8 t ++ repeat 0 (8 - List.length t)) (nlen t)) = None).
    { cbn [string_bytes]. replace (nlen t <=? nlen (firstn 8 t ++ repeat 0 (8 - List.length t))) with false; [reflexivity|].
      symmetry. apply N.leb_gt. rewrite nlen_app, Lf. unfold nlen in *. rewrite repeat_length. lia. }
    split; [exact U|]. intros sb. unfold push_str. now rewrite U.
  - intros L A. unfold short_string, short_inner, debug_assert. cbn [obind]. rewrite all_ascii_not; [reflexivity| |exact A].
    apply Forall_forall. intros x I. rewrite Forall_forall in B. apply B. rewrite <- (firstn_skipn 8 t). apply in_or_app. now left.
Qed.
Print Assumptions C122_short.
(** The documentation says that a string of more than eight bytes aborts when it is made. *)
Theorem C122_long_short_string_refuted : ~ (forall checks t, Forall (fun b => b < 256) t -> 8 < nlen t -> short_string checks t = None).
Proof. intros H. specialize (H false (txt "spacemesh") ltac:(repeat (constructor; [reflexivity|]); constructor) eq_refl). discriminate H. Qed.
Print Assumptions C122_long_short_string_refuted.

(** Digits show themselves in both builds, and what is no digit aborts in the checked one. *)
Theorem C122_digits :
  forall checks d, d < 256 ->
  (d < 10 -> shows (dec_digit checks d) [48 + d] /\ shows (hex_digit checks d) [48 + d])
  /\ (10 <= d < 16 -> shows (hex_digit checks d) [55 + d])
  /\ (10 <= d -> dec_digit true d = None) /\ (16 <= d -> hex_digit true d = None).
Proof.
  intros checks d L. split; [|split; [|split]].
  - intros L'. assert (E : shows (dec_digit checks d) [48 + d]).
    { rewrite dec_digit_same by exact L'. unfold dec_digit_string, ensure. replace (d <? 10) with true by lia. cbn [obind].
      replace (d + 48) with (48 + d) by lia. apply new_short_shows; [constructor; [unfold ascii; lia|constructor]|vm_compute; discriminate]. }
    split; [exact E|]. unfold hex_digit, debug_assert, ensure. replace (d <? 16) with true by lia. replace (d <? 10) with true by lia. destruct checks; exact E.
  - intros L'. rewrite hex_digit_same by lia. unfold hex_digit_string, ensure. replace (d <? 16) with true by lia. replace (d <? 10) with false by lia. cbn [obind].
    replace (d - 10 + 65) with (55 + d) by lia. apply new_short_shows; [constructor; [unfold ascii; lia|constructor]|vm_compute; discriminate].
  - intros L'. unfold dec_digit, debug_assert, ensure. replace (d <? 10) with false by lia. reflexivity.
  - intros L'. unfold hex_digit, debug_assert, ensure. replace (d <? 16) with false by lia. reflexivity.
Qed.
Print Assumptions C122_digits.
(** Without the checks other numbers show other characters. *)
Theorem C122_digit_refuted : ~ (forall checks d, d < 256 -> 10 <= d -> dec_digit checks d = None).
Proof. intros H. specialize (H false 10 eq_refl ltac:(discriminate)). discriminate H. Qed.
Print Assumptions C122_digit_refuted.

(** Exactly these: the character that many places after [0] (or, in hexadecimal, after the one ten places
    before [A]), counting bytes around; characters outside ASCII abort. *)
Lemma single_shows checks c : (c < 128 -> shows (byte_string checks c) [c]) /\ (128 <= c -> c < 256 -> byte_string checks c = None).
Proof.
  rewrite byte_string_same. split; [intros L|intros L L'].
  - apply new_short_shows; [constructor; [unfold ascii; lia|constructor]|vm_compute; discriminate].
  - unfold from_byte, new_short_inner. cbn [all_ascii]. change (nlen [c] <=? 8) with true. rewrite ensure_ascii_not by assumption. reflexivity.
Qed.
Lemma u8_wraps n : u8_op false n = Some (n mod 256).
Proof. unfold u8_op. destruct (N.ltb_spec n 256) as [L|L]; [rewrite N.mod_small by exact L|]; reflexivity. Qed.
Theorem C122_no_digits :
  forall d, d < 256 ->
  (let c := (48 + d) mod 256 in
   (c < 128 -> shows (dec_digit false d) [c]) /\ (128 <= c -> dec_digit false d = None))
  /\ (10 <= d -> let c := (55 + d) mod 256 in
      (c < 128 -> shows (hex_digit false d) [c]) /\ (128 <= c -> hex_digit false d = None)).
Proof.
  intros d L. split.
  - unfold dec_digit, debug_assert. cbn [obind]. rewrite u8_wraps. cbn [obind]. rewrite (N.add_comm d 48).
    split; [|intros K]; apply single_shows; [exact K|apply N.mod_lt; discriminate].
  - intros L'. unfold hex_digit, debug_assert. cbn [obind]. replace (d <? 10) with false by lia. rewrite u8_wraps. cbn [obind].
    replace (d - 10 + 65) with (55 + d) by lia. split; [|intros K]; apply single_shows; [exact K|apply N.mod_lt; discriminate].
Qed.
Print Assumptions C122_no_digits.

(** The cells of the arrays of a contract's storage are found alike in both builds. *)
Theorem C122_array_cells :
  forall checks fs vs v index, storage_vars fs = Some vs -> In v vs ->
  array_cell checks (sv_id v) index (field_cells (sv_type v)) = cell_offset (sv_id v) index (field_cells (sv_type v)).
Proof.
  intros checks fs vs v index E I. pose proof (array_access fs vs v (index mod 2 ^ 32) E I ltac:(apply N.mod_lt; discriminate)) as A.
  unfold array_cell, cell_offset in *. rewrite N.mod_mod in A by discriminate.
  destruct (N.leb_spec (field_cells (sv_type v)) (index mod 2 ^ 32)); [reflexivity|]. unfold u32_op.
  destruct (N.leb_spec (sv_id v + index mod 2 ^ 32) u32_max); [reflexivity|]. rewrite (proj2 (N.ltb_lt _ _)) in A by assumption. discriminate A.
Qed.
Print Assumptions C122_array_cells.

Lemma u32_op_fits checks n s : u32_op checks n = Some s -> checks = true \/ n <= u32_max -> s = n.
Proof.
  unfold u32_op. intros E [-> |H].
  - destruct (n <=? u32_max); congruence.
  - apply N.leb_le in H. rewrite H in E. congruence.
Qed.
(** The items of a vector stand in the memory asked for, unless its bytes do not fit 32 bits; then the
    checked build aborts. *)
Theorem C122_vector_room :
  forall checks item_size cap size, vec_bytes checks item_size cap = Some size -> checks = true \/ item_size * cap < 2 ^ 32 ->
  forall i, i < cap -> item_inside item_size i size.
Proof.
  intros checks item_size cap size E H i L.
  assert (size = item_size * cap) as ->.
  { apply (u32_op_fits checks _ _ E). destruct H as [H|H]; [now left|right]. apply N.lt_succ_r. exact H. }
  unfold item_inside. rewrite (N.mul_comm item_size cap). apply N.mul_le_mono_r. lia.
Qed.
Print Assumptions C122_vector_room.
Theorem C122_vector_room_refuted :
  ~ (forall checks item_size cap size i, cap < 2 ^ 32 -> vec_bytes checks item_size cap = Some size -> i < cap -> item_inside item_size i size).
Proof. intros H. specialize (H false 16 (2 ^ 28) 0 0 eq_refl eq_refl eq_refl). apply H. reflexivity. Qed.
Print Assumptions C122_vector_room_refuted.

Example C122_satisfiable :
  shows (show_unsigned false 18446744073709551615) (txt "18446744073709551615") /\ shows (show_signed false (-42)) (txt "-42")
  /\ shows (show_amount false 7) (txt "7 coins") /\ shows (show_layer false 7) (txt "[Layer 7]")
  /\ shows (short_string false (txt "spacemes")) (txt "spacemes")
  /\ (exists s, short_string false (txt "spacemesh") = Some s /\ useless s)
  /\ storage_vars [FArray TU8 3] = Some [mkSvar 0 0 (FArray TU8 3) 1] /\ array_cell false 0 2 3 = Some 2
  /\ vec_bytes false 16 10 = Some 160.
Proof.
  split; [eexists; split; vm_compute; reflexivity|]. split; [eexists; split; vm_compute; reflexivity|]. split; [eexists; split; vm_compute; reflexivity|].
  split; [eexists; split; vm_compute; reflexivity|]. split; [eexists; split; vm_compute; reflexivity|].
  split; [|repeat split; vm_compute; reflexivity].
  assert (B : Forall (fun b => b < 128) (txt "spacemesh")) by (repeat (constructor; [reflexivity|]); constructor).
  apply (fun B => proj1 (proj2 (proj2 (proj2 (C122_short false (txt "spacemesh") B))))); [|reflexivity|].
  - eapply Forall_impl; [|exact B]. cbv beta. intros; lia.
  - change (firstn 8 (txt "spacemesh")) with (txt "spacemes"). repeat (constructor; [reflexivity|]). constructor.
Qed.
