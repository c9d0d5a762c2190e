(** Property theorems for the SDK. *)
From Coq Require Import String List NArith ZArith Arith Bool Lia ZifyBool ZifyNat ZifyN.
From Verif Require Import Base Text LayoutModel LayoutSpec SdkModel SdkSpec SdkProofs.
Import ListNotations.
Open Scope list_scope.
Open Scope N_scope.

(** ** C44 Amount arithmetic *)
(** Subtraction aborts exactly when the subtrahend is larger; a result makes the minuend whole again. *)
Theorem C44_subtraction :
  forall a b, (amount_sub a b = None <-> a < b) /\ (forall r, amount_sub a b = Some r <-> r + b = a).
Proof.
  intros a b. unfold amount_sub, ensure. destruct (N.leb_spec b a); cbn [obind].
  - split; [split; [discriminate|lia]|]. intros r. split; [intros E; injection E as <-; lia|intros <-; f_equal; lia].
  - split; [split; [auto|auto]|]. intros r. split; [discriminate|lia].
Qed.
Print Assumptions C44_subtraction.
Example C44_satisfiable : amount_sub 5 5 = Some 0 /\ amount_sub 5 6 = None /\ amount_sub 18446744073709551615 1 = Some 18446744073709551614.
Proof. repeat split. Qed.

(** ** C45 Fixed-capacity vector *)
(** A new vector answers every sequence of operations as a bounded stack does. *)
Theorem C45_bounded_stack :
  forall (A : Type) cap (os : list (vec_op A)), answers vec_apply (vec_with_capacity cap) os = answers (stack_apply cap) [] os.
Proof. intros A cap os. apply answers_stack, holds_new. Qed.
Print Assumptions C45_bounded_stack.
(** So does a vector made from existing items, which is full. *)
Theorem C45_from_items :
  forall (A : Type) (items : list A) (os : list (vec_op A)),
  answers vec_apply (vec_from_raw_parts items) os = answers (stack_apply (nlen items)) items os.
Proof. intros A items os. apply answers_stack, holds_raw. Qed.
Print Assumptions C45_from_items.
Example C45_satisfiable :
  answers vec_apply (vec_with_capacity 2) [Push 7; Push 9; Slice; Iterate 3; Pop; Push 4; Consume 2; Length; Push 5]
  = [Some Done; Some Done; Some (Items [7; 9]); Some (Nexts [Some 7; Some 9; None]); Some (Item 9); Some Done;
     Some (Nexts [Some 7; Some 4]); Some (Count 2); None].
Proof. reflexivity. Qed.

(** ** C46 Decimal rendering *)
(** A number has one numeral only. *)
Theorem C46_numeral_unique : forall n a b, numeral n a -> numeral n b -> a = b.
Proof. exact numeral_unique. Qed.
Print Assumptions C46_numeral_unique.
(** Every unsigned integer of at most 64 bits shows its numeral. *)
Theorem C46_unsigned : forall n, n < 2 ^ 64 -> exists t, numeral n t /\ shows (unsigned_to_string n) t.
Proof.
  intros n L. exists (decimal n). split; [apply decimal_numeral|]. apply (num_string_shows n false). unfold u64_max. lia.
Qed.
Print Assumptions C46_unsigned.
(** Every signed integer of at most 64 bits shows the numeral of its magnitude, after a
    minus sign when it is negative. *)
Theorem C46_signed :
  forall z, (- 2 ^ 63 <= z < 2 ^ 63)%Z ->
  exists t, numeral (Z.to_N (Z.abs z)) t /\
    shows (signed_to_string z) ((if (z <? 0)%Z then txt "-" else []) ++ t).
Proof.
  intros z L. exists (decimal (Z.to_N (Z.abs z))). split; [apply decimal_numeral|]. unfold signed_to_string.
  pose proof (num_string_shows (Z.to_N (Z.abs z)) (z <? 0)%Z) as S. destruct (z <? 0)%Z; apply S; unfold u64_max; lia.
Qed.
Print Assumptions C46_signed.
Example C46_satisfiable :
  shows (unsigned_to_string 18446744073709551615) (txt "18446744073709551615")
  /\ shows (signed_to_string (-9223372036854775808)) (txt "-9223372036854775808")
  /\ shows (unsigned_to_string 0) (txt "0") /\ numeral 120 (txt "120").
Proof.
  split; [|split; [|split]]; try (vm_compute; eexists; split; reflexivity).
  exists [1; 2; 0]. split; [reflexivity|]. split; [|reflexivity]. split; [discriminate|]. split; [repeat constructor; lia|discriminate].
Qed.

(** ** C47 Rendering layers and amounts never aborts *)
Theorem C47_amount :
  forall n, n < 2 ^ 64 -> exists t, numeral n t /\ shows (amount_to_string n) (t ++ txt " coins").
Proof. intros n L. exists (decimal n). split; [apply decimal_numeral|]. apply amount_shows. unfold u64_max. lia. Qed.
Print Assumptions C47_amount.
Theorem C47_address :
  forall a, bytes_ok a -> List.length a = 20%nat ->
  exists t, shows (address_to_string a) (txt "0x" ++ t) /\ unhex t = Some a.
Proof. intros a B L. exists (hex_upper a). split; [now apply address_shows|now apply unhex_hex_upper]. Qed.
Print Assumptions C47_address.
(** Missing: a layer of 19 or 20 digits, whose text does not fit the buffer. *)
Theorem C47_layer_partial :
  forall n, n < 10 ^ 18 -> exists t, numeral n t /\ shows (layer_to_string n) (txt "[Layer " ++ t ++ txt "]").
Proof. intros n L. exists (decimal n). split; [apply decimal_numeral|]. now apply layer_shows. Qed.
Print Assumptions C47_layer_partial.
(** The others abort. *)
Theorem C47_layer_aborts : forall n, n < 2 ^ 64 -> 10 ^ 18 <= n -> layer_to_string n = None.
Proof. intros n L. apply layer_aborts. unfold u64_max. lia. Qed.
Print Assumptions C47_layer_aborts.
Theorem C47_layer_refuted : ~ (forall n, n < 2 ^ 64 -> layer_to_string n <> None).
Proof.
  intros H. assert (L : 10 ^ 18 < 2 ^ 64) by reflexivity.
  exact (H (10 ^ 18) L (C47_layer_aborts (10 ^ 18) L (N.le_refl (10 ^ 18)))).
Qed.
Print Assumptions C47_layer_refuted.
Example C47_satisfiable :
  shows (amount_to_string 18446744073709551615) (txt "18446744073709551615 coins")
  /\ shows (layer_to_string 0) (txt "[Layer 0]")
  /\ shows (layer_to_string 999999999999999999) (txt "[Layer 999999999999999999]")
  /\ layer_to_string 1000000000000000000 = None
  /\ shows (address_to_string (repeat 171 20)) (txt "0xABABABABABABABABABABABABABABABABABABABAB").
Proof. do 3 (split; [vm_compute; eexists; split; reflexivity|]). split; [vm_compute; reflexivity|]. vm_compute. eexists; split; reflexivity. Qed.

(** ** C48 SDK storage variables do not overlap *)
Theorem C48_disjoint :
  forall fs vs, storage_vars fs = Some vs ->
  (* one entry per field, in order *)
  map sv_type vs = fs /\
  (* no variable and no byte belongs to two fields *)
  (forall i j v w, nth_error vs i = Some v -> nth_error vs j = Some w -> i <> j ->
    (forall id, owns_id v id -> owns_id w id -> False) /\ (forall b, owns_byte v b -> owns_byte w b -> False)) /\
  (* no variable and no byte is left out *)
  (forall id, id < count_cells fs <-> exists v, In v vs /\ owns_id v id) /\
  (forall b, b < count_bytes fs <-> exists v, In v vs /\ owns_byte v b).
Proof.
  intros fs vs E. split; [|split; [exact (storage_disjoint fs vs E)|exact (storage_covered fs vs E)]].
  destruct (storage_vars_at fs 0 0 vs E) as [L At]. apply nth_error_ext. intros i.
  rewrite nth_error_map. destruct (nth_error fs i) as [f|] eqn:Fi.
  - rewrite (At i f Fi). cbn. f_equal.
  - assert (nth_error vs i = None) as -> by (apply nth_error_None; apply nth_error_None in Fi; lia). reflexivity.
Qed.
Print Assumptions C48_disjoint.
(** The host, given the sizes of all cells in order, places each cell where the macro does. *)
Theorem C48_agrees_with_layout :
  forall fs vs l, storage_vars fs = Some vs -> from_byte_sizes 0 (cell_sizes fs) = Some l ->
  forall v k, In v vs -> k < field_cells (sv_type v) ->
  layout_get l (sv_id v + k) = Some (mkVar (sv_id v + k) (sv_offset v + sv_byte_count v * k) (sv_byte_count v)).
Proof. exact storage_layout. Qed.
Print Assumptions C48_agrees_with_layout.
(** Array access stays in the field, or aborts, whatever the index. *)
Theorem C48_array_access :
  forall fs vs v index, storage_vars fs = Some vs -> In v vs ->
  match cell_offset (sv_id v) index (field_cells (sv_type v)) with
  | Some id => owns_id v id /\ id = sv_id v + index mod 2 ^ 32
  | None => field_cells (sv_type v) <= index mod 2 ^ 32
  end.
Proof.
  intros fs vs v index E I.
  assert (L : index mod 2 ^ 32 < 2 ^ 32) by (apply N.mod_lt; discriminate).
  pose proof (array_access fs vs v (index mod 2 ^ 32) E I L) as A.
  unfold cell_offset in A. rewrite N.mod_mod in A by discriminate.
  unfold cell_offset. rewrite A. destruct (N.ltb_spec (index mod 2 ^ 32) (field_cells (sv_type v))); [|auto].
  unfold owns_id. lia.
Qed.
Print Assumptions C48_array_access.
(** An index of 32 bits, the size of an index of the wasm target, names the cell of that
    number, and the access aborts exactly beyond the end. *)
Theorem C48_array_cell :
  forall fs vs v index, storage_vars fs = Some vs -> In v vs -> index < 2 ^ 32 ->
  match cell_offset (sv_id v) index (field_cells (sv_type v)) with
  | Some id => index < field_cells (sv_type v) /\ id = sv_id v + index /\ owns_id v id
  | None => field_cells (sv_type v) <= index
  end.
Proof.
  intros fs vs v index E I L. rewrite (array_access fs vs v index E I L). destruct (N.ltb_spec index (field_cells (sv_type v))); [|auto].
  unfold owns_id. lia.
Qed.
Print Assumptions C48_array_cell.
(** Where an index has 64 bits, as in the contract's own tests, it is cut to 32 bits before
    the bound check: the access beyond the end answers an element. *)
Theorem C48_wide_index_refuted :
  ~ (forall index, index < 2 ^ 64 -> 4 <= index -> cell_offset 3 index 4 = None).
Proof. intros H. specialize (H (2 ^ 32 + 1) eq_refl ltac:(discriminate)). discriminate H. Qed.
Print Assumptions C48_wide_index_refuted.
Example C48_satisfiable :
  storage_vars [FPrim TU16; FArray TAddress 3; FPrim TBool] =
    Some [mkSvar 0 0 (FPrim TU16) 2; mkSvar 1 2 (FArray TAddress 3) 20; mkSvar 4 62 (FPrim TBool) 1]
  /\ cell_sizes [FPrim TU16; FArray TAddress 3; FPrim TBool] = [2; 20; 20; 20; 1]
  /\ (exists l, from_byte_sizes 0 [2; 20; 20; 20; 1] = Some l /\ layout_get l 3 = Some (mkVar 3 42 20))
  /\ cell_offset 1 2 3 = Some 3 /\ cell_offset 1 3 3 = None.
Proof. repeat split; try reflexivity. eexists. split; reflexivity. Qed.

(** ** C75 Amounts added or multiplied are exact *)
(** With the compiler's overflow checks: exact, or an abort.  Missing: builds without them,
    such as the profile of the example contract (crates/host/cli/examples/craft-deploy/Cargo.toml:15). *)
Theorem C75_checked_partial :
  forall a b,
  (amount_add true a b = if a + b <? 2 ^ 64 then Some (a + b) else None) /\
  (amount_mul true a b = if a * b <? 2 ^ 64 then Some (a * b) else None).
Proof.
  intros a b. unfold amount_add, amount_mul, u64_op, u64_max.
  split;
    repeat match goal with |- context [?x <=? ?y] => destruct (N.leb_spec x y) end;
    repeat match goal with |- context [?x <? ?y] => destruct (N.ltb_spec x y) end; auto; try lia.
Qed.
Print Assumptions C75_checked_partial.
(** Without them, two amounts can add up to less than either. *)
Theorem C75_unchecked_refuted :
  ~ (forall a b r, a < 2 ^ 64 -> b < 2 ^ 64 -> amount_add false a b = Some r -> r = a + b).
Proof. intros H. specialize (H (2 ^ 64 - 1) 1 0 eq_refl eq_refl eq_refl). discriminate H. Qed.
Print Assumptions C75_unchecked_refuted.
Theorem C75_unchecked_mul_refuted :
  ~ (forall a b r, a < 2 ^ 64 -> b < 2 ^ 64 -> amount_mul false a b = Some r -> r = a * b).
Proof. intros H. specialize (H (2 ^ 32) (2 ^ 32) 0 eq_refl eq_refl eq_refl). discriminate H. Qed.
Print Assumptions C75_unchecked_mul_refuted.
Example C75_satisfiable : amount_add true 3 4 = Some 7 /\ amount_add true (2 ^ 64 - 1) 1 = None /\ amount_mul true 3 4 = Some 12.
Proof. repeat split. Qed.

(** ** C112 Strings of the SDK *)
(** A short string can be made of at most 8 ASCII bytes, and shows them; anything else aborts. *)
Theorem C112_short :
  forall t, Forall (fun b => b < 256) t ->
  (is_ascii t /\ nlen t <= 8 -> shows (new_short t) t) /\ (~ (is_ascii t /\ nlen t <= 8) -> new_short t = None).
Proof.
  intros t B. split; [intros [A L]; now apply new_short_shows|]. intros N. unfold new_short, new_short_inner, ensure.
  destruct (N.leb_spec (nlen t) 8) as [L|]; [|reflexivity]. cbn [obind]. rewrite all_ascii_not; [reflexivity|exact B|tauto].
Qed.
Print Assumptions C112_short.
(** A builder aborts unless every string it is given is ASCII and shorter than 256 bytes and they
    fit together in its room; then it makes their concatenation. *)
Theorem C112_builder :
  forall room ss ts, Forall2 (fun s t => string_bytes s = Some t /\ Forall (fun b => b < 256) t) ss ts ->
  (Forall (fun t => is_ascii t /\ nlen t < 256) ts /\ nlen (concat ts) <= room -> shows (built room ss) (concat ts))
  /\ (~ (Forall (fun t => is_ascii t /\ nlen t < 256) ts /\ nlen (concat ts) <= room) -> built room ss = None).
Proof.
  intros room ss ts F. destruct (push_all_spec ss ts F (vec_with_capacity room) room [] (holds_new room)) as [A B].
  change (nlen (@nil N)) with 0 in *. rewrite N.add_0_l in *. unfold built. split.
  - intros H. destruct (A H) as (v & -> & Hv). cbn [obind]. exact (unchecked_any v room _ Hv).
  - intros H. now rewrite (B H).
Qed.
Print Assumptions C112_builder.
(** Without the check a string shows whatever bytes it was made of. *)
Theorem C112_unchecked : forall t, shows (new_unchecked (vec_from_raw_parts t)) t.
Proof. intros t. exact (unchecked_any _ _ t (holds_raw t)). Qed.
Print Assumptions C112_unchecked.
Example C112_satisfiable :
  shows (new_short (txt "svm")) (txt "svm") /\ new_short (txt "spacemesh") = None /\ new_short [200] = None
  /\ shows (new_unchecked (vec_from_raw_parts [200])) [200]
  /\ (exists a b, new_short (txt "abc") = Some a /\ new_short (txt "de") = Some b
      /\ shows (built 8 [a; b; a]) (txt "abcdeabc") /\ built 7 [a; b; a] = None).
Proof. repeat split; try (vm_compute; (reflexivity || (eexists; split; reflexivity))). do 2 eexists. repeat split; vm_compute; try reflexivity. eexists; split; reflexivity. Qed.
