(** Lemmas about the ABI model. *)
From Coq Require Import List NArith ZArith Arith Bool Lia ZifyBool ZifyNat ZifyN.
From Verif Require Import Base SdkModel SdkSpec SdkProofs AbiModel AbiSpec.
Import ListNotations.
Open Scope list_scope.
Open Scope N_scope.

(* ------------------------------------------------------------------------- *)
(** * Integers *)

Ltac zdivs := Z.to_euclidean_division_equations; lia.

(** The specification's tables are the program's. *)
Ltac tables := unfold AbiSpec.in_range, complement in *; try change int_bits with ity_bits in *; try change has_sign with ity_signed in *.
Lemma bits_cases t : (ity_bits t = 8 \/ ity_bits t = 16 \/ ity_bits t = 32 \/ ity_bits t = 64)%Z.
Proof. destruct t; cbn; lia. Qed.
Lemma as_ity_range t z : in_range t (as_ity t z).
Proof.
  tables. unfold as_ity.
  assert (M : (0 < 2 ^ (ity_bits t - 1) /\ 2 ^ ity_bits t = 2 * 2 ^ (ity_bits t - 1))%Z) by (destruct t; split; reflexivity).
  destruct M as [M1 M2]. rewrite M2. pose proof (Z.mod_pos_bound z (2 * 2 ^ (ity_bits t - 1)) ltac:(lia)).
  destruct (ity_signed t); cbn [andb]; [|lia]. destruct (Z.leb_spec (2 ^ (ity_bits t - 1)) (z mod (2 * 2 ^ (ity_bits t - 1)))); lia.
Qed.
Lemma as_ity_mod t z : (as_ity t z mod 2 ^ ity_bits t = z mod 2 ^ ity_bits t)%Z.
Proof.
  unfold as_ity. set (m := (2 ^ ity_bits t)%Z). assert (0 < m)%Z by (destruct t; reflexivity).
  destruct (ity_signed t && _)%bool.
  - replace (z mod m - m)%Z with (z mod m + (-1) * m)%Z by lia. rewrite Z.mod_add by lia. apply Z.mod_mod. lia.
  - apply Z.mod_mod. lia.
Qed.
Lemma in_range_unique t a b : in_range t a -> in_range t b -> (a mod 2 ^ ity_bits t = b mod 2 ^ ity_bits t)%Z -> a = b.
Proof.
  intros A B E. tables. set (m := (2 ^ ity_bits t)%Z) in *.
  assert (M : (0 < m /\ (ity_signed t = true -> m = 2 * 2 ^ (ity_bits t - 1)))%Z) by (destruct t; cbn; lia).
  destruct M as [M H]. assert (X : (- m < a - b < m)%Z) by (destruct (ity_signed t); [specialize (H eq_refl)|clear H]; lia).
  assert (D : ((a - b) mod m = 0)%Z) by (rewrite Zminus_mod, E, Z.sub_diag; apply Z.mod_0_l; lia).
  apply Z.mod_divide in D; [|lia]. destruct D as [k D]. assert (k = 0)%Z by nia. lia.
Qed.
Lemma as_ity_id t z : in_range t z -> as_ity t z = z.
Proof. intros R. apply (in_range_unique t); [apply as_ity_range|exact R|apply as_ity_mod]. Qed.
Lemma as_ity_again t t' z : ity_bits t = ity_bits t' -> as_ity t (as_ity t' z) = as_ity t z.
Proof. intros E. apply (in_range_unique t); try apply as_ity_range. rewrite !as_ity_mod, E, as_ity_mod. reflexivity. Qed.

Lemma to_u64_spec t z : to_u64 t z = complement t z.
Proof.
  unfold to_u64. tables. f_equal.
  assert (E : as_ity (ity_unsigned t) z = (z mod 2 ^ ity_bits t)%Z) by (destruct t; reflexivity).
  rewrite E. apply as_ity_id. tables. cbn [ity_signed ity_bits].
  assert (0 < 2 ^ ity_bits t <= 2 ^ 64)%Z by (destruct t; cbn; lia).
  pose proof (Z.mod_pos_bound z (2 ^ ity_bits t) ltac:(lia)). lia.
Qed.
Lemma complement_bound t z : complement t z < 2 ^ Z.to_N (ity_bits t).
Proof.
  tables. pose proof (Z.mod_pos_bound z (2 ^ ity_bits t) ltac:(destruct t; reflexivity)).
  destruct t; cbn [ity_bits] in *; change (2 ^ Z.to_N 8) with 256; change (2 ^ Z.to_N 16) with 65536;
    change (2 ^ Z.to_N 32) with 4294967296; change (2 ^ Z.to_N 64) with 18446744073709551616; cbn -[Z.modulo] in *; lia.
Qed.
Lemma complement_u64 t z : complement t z < 2 ^ 64.
Proof. pose proof (complement_bound t z). eapply N.lt_le_trans; [exact H|]. apply N.pow_le_mono_r; [lia|]. destruct t; cbn; lia. Qed.
(** Reading the two's complement back. *)
Lemma complement_back t z : in_range t z -> as_ity t (Z.of_N (complement t z)) = z.
Proof.
  intros R. apply (in_range_unique t); [apply as_ity_range|exact R|]. rewrite as_ity_mod. tables.
  rewrite Z2N.id by (apply Z.mod_pos_bound; destruct t; reflexivity). apply Z.mod_mod. destruct t; discriminate.
Qed.

(** ** Widths *)
Lemma width_pos n : 1 <= width n.
Proof. unfold width. lia. Qed.
Lemma log2_bounds n k : 0 < n -> (n < 2 ^ k <-> N.log2 n < k).
Proof. intros P. apply N.log2_lt_pow2. exact P. Qed.
Lemma width_le n k : 1 <= k -> (n < 256 ^ k <-> width n <= k).
Proof.
  intros K. unfold width. replace (256 ^ k) with (2 ^ (8 * k)) by (change 256 with (2 ^ 8); now rewrite <- N.pow_mul_r).
  destruct (N.eq_dec n 0) as [->|P].
  - cbn. split; intros _; [lia|]. apply N.neq_0_lt_0, N.pow_nonzero. lia.
  - rewrite log2_bounds by lia. split; intros L.
    + assert (N.log2 n / 8 < k) by (apply N.div_lt_upper_bound; lia). lia.
    + pose proof (N.div_mod (N.log2 n) 8 ltac:(lia)). pose proof (N.mod_lt (N.log2 n) 8 ltac:(lia)). lia.
Qed.
Lemma u64_byte_size_width n : n < 2 ^ 64 -> u64_byte_size n = width n + 1.
Proof.
  intros L.
  pose proof (width_le n 1 ltac:(lia)) as W1. pose proof (width_le n 2 ltac:(lia)) as W2. pose proof (width_le n 3 ltac:(lia)) as W3.
  pose proof (width_le n 4 ltac:(lia)) as W4. pose proof (width_le n 5 ltac:(lia)) as W5. pose proof (width_le n 6 ltac:(lia)) as W6.
  pose proof (width_le n 7 ltac:(lia)) as W7. pose proof (width_le n 8 ltac:(lia)) as W8. pose proof (width_pos n).
  change (256 ^ 1) with 256 in *. change (256 ^ 2) with 65536 in *. change (256 ^ 3) with 16777216 in *. change (256 ^ 4) with 4294967296 in *.
  change (256 ^ 5) with 1099511627776 in *. change (256 ^ 6) with 281474976710656 in *. change (256 ^ 7) with 72057594037927936 in *.
  change (256 ^ 8) with 18446744073709551616 in *. change (2 ^ 64) with 18446744073709551616 in L.
  unfold u64_byte_size. repeat match goal with |- context [?x <=? ?y] => destruct (N.leb_spec x y) end; lia.
Qed.
Lemma width_8 n : n < 2 ^ 64 -> width n <= 8.
Proof. intros L. apply width_le; [lia|exact L]. Qed.
Lemma number_length n : nlen (number n) = width n.
Proof. unfold nlen, number. rewrite be_bytes_length. lia. Qed.
Lemma number_value n : be_value (number n) = n.
Proof.
  unfold number. apply be_value_be_bytes_small. rewrite N2Nat.id. apply width_le; [apply width_pos|lia].
Qed.
Lemma number_ok n : bytes_ok (number n).
Proof. apply be_bytes_ok. Qed.

(* ------------------------------------------------------------------------- *)
(** * Encoding *)

(** [enc] appends exactly [e], or aborts for want of room. *)
Definition appends (enc : fvec N -> option (fvec N)) (e : bytes) : Prop :=
  forall w cap l, holds w cap l ->
  (nlen l + nlen e <= cap -> exists w', enc w = Some w' /\ holds w' cap (l ++ e)) /\
  (cap < nlen l + nlen e -> enc w = None).

Lemma appends_push b : appends (fun w => vec_push w b) [b].
Proof.
  intros w cap l H. change (nlen [b]) with 1. split; intros L; [apply (holds_push w cap l b H); lia|apply (holds_push_full w cap l b H); lia].
Qed.
Lemma appends_seq f g a b : appends f a -> appends g b -> appends (fun w => let? w := f w in g w) (a ++ b).
Proof.
  intros F G w cap l H. rewrite nlen_app. destruct (F w cap l H) as [F1 F2]. split; intros L.
  - destruct F1 as (w1 & -> & H1); [lia|]. cbn [obind]. destruct (G w1 cap _ H1) as [G1 _]. rewrite nlen_app in G1.
    destruct G1 as (w2 & E & H2); [lia|]. exists w2. rewrite <- app_assoc in H2. auto.
  - destruct (N.lt_ge_cases cap (nlen l + nlen a)) as [Lt|Ge]; [now rewrite F2|].
    destruct F1 as (w1 & -> & H1); [lia|]. cbn [obind]. destruct (G w1 cap _ H1) as [_ G2]. apply G2. rewrite nlen_app. lia.
Qed.
Lemma appends_pushes bs : appends (fun w => vec_pushes w bs) bs.
Proof. intros w cap l H. split; intros L; [apply (holds_pushes bs w cap l H L)|apply (pushes_full bs w cap l H L)]. Qed.
Lemma appends_ext f g e : (forall w, f w = g w) -> appends f e -> appends g e.
Proof. intros E F w cap l H. destruct (F w cap l H) as [A B]. rewrite <- E. auto. Qed.
Lemma appends_last bs : forall top size, nlen bs <= top -> appends (fun w => push_last w bs top size) (skipn (N.to_nat (top - size)) bs).
Proof.
  induction bs as [|b bs IH]; intros top size T.
  - rewrite skipn_nil. intros w cap l H. change (nlen (@nil N)) with 0. cbn [push_last]. split; intros L; [exists w; rewrite app_nil_r; auto|].
    destruct H as (_ & _ & Le & _). lia.
  - rewrite nlen_cons in T. cbn [push_last]. destruct (N.leb_spec top size) as [Le|Gt].
    + replace (N.to_nat (top - size)) with 0%nat by lia. cbn [skipn]. apply (appends_seq (fun w => vec_push w b) _ [b] bs); [apply appends_push|].
      specialize (IH (top - 1) size ltac:(lia)). replace (N.to_nat (top - 1 - size)) with 0%nat in IH by lia. exact IH.
    + replace (N.to_nat (top - size)) with (S (N.to_nat (top - 1 - size))) by lia. cbn [skipn obind]. apply IH. lia.
Qed.
Lemma be_bytes_skip w k n : skipn k (be_bytes (k + w) n) = be_bytes w n.
Proof. induction k as [|k IH]; [reflexivity|]. cbn [Nat.add be_bytes skipn]. exact IH. Qed.
Lemma appends_number n top : n < 2 ^ 64 -> 8 <= top -> appends (fun w => push_last w (be_bytes 8 n) top (width n + (top - 8))) (number n).
Proof.
  intros L T. pose proof (width_8 n L). pose proof (width_pos n). unfold number. rewrite <- (be_bytes_skip (N.to_nat (width n)) (N.to_nat (8 - width n)) n).
  replace (N.to_nat (8 - width n) + N.to_nat (width n))%nat with 8%nat by lia.
  replace (N.to_nat (8 - width n)) with (N.to_nat (top - (width n + (top - 8)))) by lia.
  apply appends_last. unfold nlen. rewrite be_bytes_length. lia.
Qed.

Lemma small_cases w k : 1 <= w <= k -> k <= 8 -> In w [1;2;3;4;5;6;7;8].
Proof. intros A B. cbn. lia. Qed.
Lemma width_ity t z : 1 <= width (complement t z) <= Z.to_N (ity_bits t) / 8.
Proof.
  split; [apply width_pos|]. apply width_le.
  - destruct t; cbn; lia.
  - pose proof (complement_bound t z) as B. destruct t; exact B.
Qed.
Lemma max_size t : int_max_byte_size t = Z.to_N (ity_bits t) / 8 + 1.
Proof. destruct t; reflexivity. Qed.
Lemma layout_integer_mark t z :
  layout_integer (int_max_byte_size t - 1) (int_byte_size t z - 1) (ity_signed t) = Some (int_mark t (width (complement t z))).
Proof.
  unfold int_byte_size. rewrite to_u64_spec, u64_byte_size_width by apply complement_u64. rewrite max_size.
  pose proof (width_ity t z) as W. set (w := width (complement t z)) in *. clearbody w.
  replace (w + 1 - 1) with w by lia.
  assert (I : In w [1;2;3;4;5;6;7;8]) by (eapply small_cases; [exact W|destruct t; cbn; lia]).
  destruct t; cbn -[In] in W; cbn [In] in I; repeat (destruct I as [<-|I]; [try (exfalso; lia); reflexivity|]); contradiction.
Qed.
Lemma appends_int t z : appends (encode_int t z) (prim_format (PInt t z)).
Proof.
  unfold encode_int. cbn [prim_format]. rewrite layout_integer_mark. cbn [obind].
  apply (appends_seq (fun w => vec_push w (int_mark t (width (complement t z)))) _ [_] _); [apply appends_push|].
  unfold int_byte_size. rewrite to_u64_spec, u64_byte_size_width by apply complement_u64.
  pose proof (appends_number (complement t z) 8 (complement_u64 t z) ltac:(lia)) as A.
  replace (width (complement t z) + (8 - 8)) with (width (complement t z) + 1 - 1) in A by lia. exact A.
Qed.
Lemma appends_amount n : n < 2 ^ 64 -> appends (encode_amount n) (prim_format (PAmount n)).
Proof.
  intros L. unfold encode_amount. cbn [prim_format]. rewrite u64_byte_size_width by exact L.
  pose proof (width_8 n L) as W8. pose proof (width_pos n) as W1.
  assert (E : layout_amount_b ((width n + 1 - 2) mod 256) = mark (width n - 1) 1).
  { set (w := width n) in *. clearbody w. assert (I : In w [1;2;3;4;5;6;7;8]) by (cbn; lia).
    cbn [In] in I; repeat (destruct I as [<-|I]; [reflexivity|]); contradiction. }
  rewrite E. apply (appends_seq (fun w => vec_push w (mark (width n - 1) 1)) _ [_] _); [apply appends_push|].
  pose proof (appends_number n 9 L ltac:(lia)) as A. replace (width n + (9 - 8)) with (width n + 1) in A by lia. exact A.
Qed.
Lemma appends_address a : length a = 20%nat -> appends (encode_address a) (prim_format (PAddress a)).
Proof.
  intros L. unfold encode_address. cbn [prim_format].
  apply (appends_seq (fun w => vec_push w L_ADDRESS) _ [_] _); [apply appends_push|].
  apply (appends_ext (fun w => vec_pushes w a)); [|apply appends_pushes].
  intros w. unfold ensure, nlen. rewrite L. cbn [N.of_nat N.leb N.compare obind]. rewrite firstn_all2 by lia. reflexivity.
Qed.
Lemma appends_prim p : prim_ok p -> appends (encode_primitive p) (prim_format p).
Proof.
  destruct p as [| |b|a|n|t z]; intros O; cbn [encode_primitive].
  - apply appends_push.
  - apply appends_push.
  - destruct b; apply appends_push.
  - apply appends_address. apply O.
  - apply appends_amount. exact O.
  - apply appends_int.
Qed.
Lemma array_mark_spec n : n <= 10 -> layout_array n = array_mark n.
Proof.
  intros L. assert (I : In n [0;1;2;3;4;5;6;7;8;9;10]) by (cbn; lia).
  cbn [In] in I; repeat (destruct I as [<-|I]; [reflexivity|]); contradiction.
Qed.
Lemma fold_none {A B} (f : A -> B -> option B) xs : fold_left (fun w x => let? w := w in f x w) xs None = None.
Proof. induction xs; auto. Qed.
Lemma appends_fold {A} (enc : A -> fvec N -> option (fvec N)) (fmt : A -> bytes) xs : Forall (fun x => appends (enc x) (fmt x)) xs ->
  appends (fun w => fold_left (fun w x => let? w := w in enc x w) xs (Some w)) (flat_map fmt xs).
Proof.
  induction 1 as [|x xs X _ IH].
  - intros w cap l H. cbn [fold_left flat_map]. change (nlen (@nil N)) with 0. split; intros L; [exists w; rewrite app_nil_r; auto|].
    destruct H as (_ & _ & Le & _). lia.
  - cbn [flat_map fold_left]. apply (appends_ext (fun w => let? w := enc x w in fold_left (fun w x => let? w := w in enc x w) xs (Some w))).
    + intros w. cbn [obind]. destruct (enc x w); cbn [obind]; [reflexivity|]. symmetry. apply fold_none.
    + apply appends_seq; auto.
Qed.
Lemma appends_slice {A} (enc : A -> fvec N -> option (fvec N)) (fmt : A -> bytes) xs : nlen xs <= 10 -> Forall (fun x => appends (enc x) (fmt x)) xs ->
  appends (encode_slice enc xs) (array_mark (nlen xs) :: flat_map fmt xs).
Proof.
  intros L F. unfold encode_slice.
  apply (appends_ext (fun w => let? w := vec_push w (array_mark (nlen xs)) in fold_left (fun w x => let? w := w in enc x w) xs (Some w))).
  - intros w. unfold ensure. replace (nlen xs <? 11) with true by lia. cbn [obind]. now rewrite array_mark_spec.
  - apply (appends_seq (fun w => vec_push w (array_mark (nlen xs))) _ [_] _); [apply appends_push|now apply appends_fold].
Qed.
Lemma appends_value v : flat v -> appends (encode_value v) (format v).
Proof.
  destruct v as [p|vs]; [apply appends_prim|]. intros [L F]. cbn [encode_value format]. apply appends_slice; [exact L|].
  rewrite Forall_forall in *. intros v I. destruct (F v I) as (p & -> & O). now apply appends_prim.
Qed.
Lemma appends_values vs : Forall flat vs -> appends (encode_values vs) (flat_map format vs).
Proof. intros F. apply appends_fold. eapply Forall_impl; [|exact F]. intros v. apply appends_value. Qed.
Lemma appends_new f e : appends f e -> forall cap w, f (vec_with_capacity cap) = Some w -> vec_as_slice w = Some e.
Proof.
  intros A cap w E. destruct (A (vec_with_capacity cap) cap [] (holds_new cap)) as [A1 A2]. change (nlen (@nil N)) with 0 in *.
  destruct (N.lt_ge_cases cap (0 + nlen e)) as [Lt|Ge]; [rewrite A2 in E by lia; discriminate E|].
  destruct A1 as (w' & E' & H); [lia|]. rewrite E in E'. injection E' as <-. eapply holds_slice. exact H.
Qed.
Lemma appends_fits f e : appends f e -> forall cap, (exists w, f (vec_with_capacity cap) = Some w) <-> nlen e <= cap.
Proof.
  intros A cap. destruct (A (vec_with_capacity cap) cap [] (holds_new cap)) as [A1 A2]. change (nlen (@nil N)) with 0 in *. split.
  - intros (w & E). destruct (N.lt_ge_cases cap (nlen e)) as [Lt|Ge]; [rewrite A2 in E by lia; discriminate E|exact Ge].
  - intros L. destruct A1 as (w & E & _); [lia|]. eauto.
Qed.

(* ------------------------------------------------------------------------- *)
(** * Decoding *)

(** A cursor after [pre], before [rest]. *)
Definition at_ (pre rest : bytes) : cursor := mkCursor (pre ++ rest) (nlen pre).
Lemma at_eof pre rest : is_eof (at_ pre rest) = match rest with [] => true | _ => false end.
Proof. unfold is_eof, at_. cbn [cu_bytes cu_offset]. rewrite nlen_app. destruct rest; [change (nlen (@nil N)) with 0|rewrite nlen_cons]; lia. Qed.
Lemma at_peek pre b rest : cu_peek (at_ pre (b :: rest)) = Ok b.
Proof.
  unfold cu_peek. rewrite at_eof. unfold at_. cbn [cu_bytes cu_offset]. unfold nlen. rewrite Nat2N.id, nth_error_app2, Nat.sub_diag by lia. reflexivity.
Qed.
Lemma at_read_byte pre b rest : cu_read_byte (at_ pre (b :: rest)) = Ok (b, at_ (pre ++ [b]) rest).
Proof.
  unfold cu_read_byte. rewrite at_peek. cbn [bind]. unfold at_. cbn [cu_bytes cu_offset]. do 2 f_equal. rewrite <- app_assoc, nlen_app. reflexivity.
Qed.
Lemma at_read_bytes pre s rest n : nlen s = n -> cu_read_bytes (at_ pre (s ++ rest)) n = Ok (s, at_ (pre ++ s) rest).
Proof.
  intros <-. unfold cu_read_bytes, at_. cbn [cu_bytes cu_offset]. rewrite !nlen_app. replace (nlen pre + nlen s <=? nlen pre + (nlen s + nlen rest)) with true by lia.
  unfold nlen. rewrite !Nat2N.id, skipn_app, skipn_all, Nat.sub_diag. cbn [skipn app]. rewrite firstn_app, firstn_all, Nat.sub_diag. cbn [firstn].
  rewrite app_nil_r, <- app_assoc. reflexivity.
Qed.
Lemma be_value_zeros k s : be_value (repeat 0 k ++ s) = be_value s.
Proof. induction k as [|k IH]; [reflexivity|]. cbn [repeat app]. rewrite be_value_cons, IH. lia. Qed.
Lemma at_read_num pre n rest w : n < 2 ^ 64 -> w = width n -> read_num (at_ pre (number n ++ rest)) w = Ok (n, at_ (pre ++ number n) rest).
Proof.
  intros L ->. unfold read_num. pose proof (width_8 n L). pose proof (width_pos n). replace ((0 <? width n) && (width n <=? 8)) with true by lia.
  rewrite at_read_bytes by apply number_length. cbn [bind]. now rewrite be_value_zeros, number_value.
Qed.

Ltac widths w W := assert (I8' : In w [1;2;3;4;5;6;7;8]) by (cbn; lia);
  cbn [In] in I8'; repeat (destruct I8' as [<-|I8']; [try (exfalso; lia)|]); [..|contradiction].

Lemma kind_int t w : 1 <= w <= Z.to_N (ity_bits t) / 8 -> kind_of (int_mark t w) = Ok (KInt t).
Proof. intros W. destruct t; cbn -[In] in W; widths w W; reflexivity. Qed.
Lemma decode_int_ok t z pre rest : in_range t z ->
  decode_int t (at_ pre (prim_format (PInt t z) ++ rest)) = Ok (z, at_ (pre ++ prim_format (PInt t z)) rest).
Proof.
  intros R. pose proof (width_ity t z) as W. cbn [prim_format app]. pose proof (complement_u64 t z) as C.
  pose proof (complement_back t z R) as B.
  set (n := complement t z) in *. remember (width n) as w eqn:Ew. symmetry in Ew.
  assert (Sg : forall s, ity_bits s = ity_bits t -> (if ity_signed t then as_ity s (Z.of_N n) else as_ity t (as_ity s (Z.of_N n))) = z \/ (ity_signed t = true /\ s <> t)).
  { intros s Es. destruct (ity_signed t) eqn:St.
    - destruct (as_ity s (Z.of_N n) =? z)%Z eqn:X; [left; lia|]. right. split; [reflexivity|]. intros ->. lia.
    - left. rewrite as_ity_again by congruence. exact B. }
  assert (Pa : pre ++ int_mark t w :: number n = (pre ++ [int_mark t w]) ++ number n) by now rewrite <- app_assoc.
  rewrite Pa. unfold decode_int.
  destruct t; cbn -[In] in W; unfold decode_i8, decode_i16, decode_i32, decode_i64; rewrite at_read_byte; cbn [bind];
    widths w W; cbn [bind int_mark ity_signed];
    match goal with |- context [pick ?m ?l] => let r := eval vm_compute in (pick m l) in change (pick m l) with r; cbn [bind] | _ => idtac end;
    try (match goal with |- context [one_of ?m ?l] => change (one_of m l) with true end; cbv iota);
    (rewrite at_read_num by (assumption || congruence)); cbn [bind];
    (do 2 f_equal);
    first [ exact B
          | destruct (Sg I8 eq_refl) as [X|[X _]]; [exact X|discriminate X]
          | destruct (Sg I16 eq_refl) as [X|[X _]]; [exact X|discriminate X]
          | destruct (Sg I32 eq_refl) as [X|[X _]]; [exact X|discriminate X]
          | destruct (Sg I64 eq_refl) as [X|[X _]]; [exact X|discriminate X] ].
Qed.
Lemma decode_amount_ok n pre rest : n < 2 ^ 64 ->
  decode_amount (at_ pre (prim_format (PAmount n) ++ rest)) = Ok (PAmount n, at_ (pre ++ prim_format (PAmount n)) rest).
Proof.
  intros L. pose proof (width_8 n L) as W8. pose proof (width_pos n) as W1. cbn [prim_format app].
  remember (width n) as w eqn:Ew. symmetry in Ew. unfold decode_amount. rewrite at_read_byte. cbn [bind].
  assert (Pa : pre ++ mark (w - 1) 1 :: number n = (pre ++ [mark (w - 1) 1]) ++ number n) by now rewrite <- app_assoc.
  rewrite Pa.
  widths w W1;
    match goal with |- context [pick ?m ?l] => let r := eval vm_compute in (pick m l) in change (pick m l) with r; cbn [bind] end;
    (rewrite at_read_num by (assumption || congruence)); reflexivity.
Qed.
(** The kind of a primitive. *)
Definition prim_kind (p : primitive) : type_kind :=
  match p with PNone => KNone | PUnit => KUnit | PBool _ => KBool | PAddress _ => KAddress | PAmount _ => KAmount | PInt t _ => KInt t end.
Lemma peek_prim p pre rest : prim_ok p -> peek_kind (at_ pre (prim_format p ++ rest)) = Ok (prim_kind p).
Proof.
  intros O. unfold peek_kind. destruct p as [| |b|a|n|t z]; cbn [prim_format app prim_kind]; rewrite at_peek; cbn [bind]; try reflexivity.
  - destruct b; reflexivity.
  - pose proof (width_8 n O) as W8. pose proof (width_pos n) as W1. set (w := width n) in *. clearbody w. widths w W1; reflexivity.
  - apply kind_int, width_ity.
Qed.
Lemma decode_prim_ok p pre rest : prim_ok p ->
  decode_primitive (at_ pre (prim_format p ++ rest)) = Ok (p, at_ (pre ++ prim_format p) rest).
Proof.
  intros O. unfold decode_primitive. rewrite peek_prim by exact O. cbn [bind].
  destruct p as [| |b|a|n|t z]; cbn [prim_kind].
  - cbn [prim_format app]. rewrite at_read_byte. reflexivity.
  - cbn [prim_format app]. rewrite at_read_byte. reflexivity.
  - cbn [prim_format app]. rewrite at_read_byte. destruct b; reflexivity.
  - cbn [prim_format app]. rewrite at_read_byte. cbn [bind]. change (mark 4 0 =? L_ADDRESS) with true. cbv iota.
    destruct O as [_ O]. rewrite at_read_bytes by (unfold nlen; rewrite O; reflexivity). cbn [bind]. rewrite <- app_assoc. reflexivity.
  - now apply decode_amount_ok.
  - rewrite decode_int_ok by exact O. reflexivity.
Qed.
Lemma prim_format_nonempty p : exists b bs, prim_format p = b :: bs.
Proof. destruct p; cbn; eauto. Qed.
Lemma decode_elements_ok ps : forall vs cap l pre rest, Forall prim_ok ps -> holds vs cap l -> nlen l + nlen ps <= cap ->
  exists vs', decode_elements (length ps) vs (at_ pre (flat_map prim_format ps ++ rest)) = Ok (vs', at_ (pre ++ flat_map prim_format ps) rest)
    /\ holds vs' cap (l ++ map VPrim ps).
Proof.
  induction ps as [|p ps IH]; intros vs cap l pre rest F H L.
  - exists vs. cbn. rewrite !app_nil_r. auto.
  - apply Forall_cons_iff in F. destruct F as [Op F]. rewrite nlen_cons in L. cbn [length decode_elements flat_map].
    rewrite <- app_assoc, decode_prim_ok by exact Op. cbn [bind].
    destruct (holds_push vs cap l (VPrim p) H) as (v1 & -> & H1); [lia|].
    destruct (IH v1 cap (l ++ [VPrim p]) (pre ++ prim_format p) rest F H1) as (v2 & E & H2); [rewrite nlen_app; change (nlen [VPrim p]) with 1; lia|].
    exists v2. rewrite <- !app_assoc in *. auto.
Qed.
(** An array of ten or fewer, not eight, primitives. *)
Lemma flat_map_prims ps : flat_map format (map VPrim ps) = flat_map prim_format ps.
Proof. induction ps as [|p ps IH]; [reflexivity|]. cbn [map flat_map format]. now rewrite IH. Qed.
Lemma decode_array_ok ps pre rest : Forall prim_ok ps -> nlen ps <= 10 -> nlen ps <> 8 ->
  decode_array (at_ pre (format (VVec (map VPrim ps)) ++ rest)) = Ok (VVec (map VPrim ps), at_ (pre ++ format (VVec (map VPrim ps))) rest).
Proof.
  intros F L Ne. cbn [format]. rewrite flat_map_prims. replace (nlen (map VPrim ps)) with (nlen ps) by (unfold nlen; now rewrite map_length).
  unfold decode_array. rewrite at_eof. cbn [app]. rewrite at_read_byte. cbn [bind].
  assert (X : exists b, array_mark (nlen ps) = b /\ nlen ps <= b /\
     pick b [([L_ARR_0], 0); ([L_ARR_1], 1); ([L_ARR_2], 2); ([L_ARR_3], 3); ([L_ARR_4], 4); ([L_ARR_5], 5); ([L_ARR_6], 6); ([L_ARR_7], 7); ([L_ARR_8], 8); ([L_ARR_9], 9); ([L_ARR_10], 10)] = Ok (nlen ps)).
  { assert (I : In (nlen ps) [0;1;2;3;4;5;6;7;8;9;10]) by (cbn; lia). exists (array_mark (nlen ps)). split; [reflexivity|].
    cbn [In] in I. repeat (destruct I as [E|I]; [rewrite <- E in *; first [exfalso; lia | split; [vm_compute; discriminate|reflexivity]]|]). contradiction. }
  destruct X as (b & -> & Lb & ->). cbn [bind].
  destruct (decode_elements_ok ps (vec_with_capacity b) b [] (pre ++ [b]) rest F (holds_new b)) as (vs & E & H); [change (nlen (@nil value)) with 0; lia|].
  replace (N.to_nat (nlen ps)) with (length ps) by (unfold nlen; lia). rewrite E. cbn [bind].
  rewrite (holds_slice vs b _ H). cbn [app]. rewrite <- app_assoc. reflexivity.
Qed.
Lemma kind_array n : n <= 10 -> kind_of (array_mark n) = Ok KArray.
Proof.
  intros L. assert (I : In n [0;1;2;3;4;5;6;7;8;9;10]) by (cbn; lia).
  cbn [In] in I; repeat (destruct I as [<-|I]; [reflexivity|]); contradiction.
Qed.
Lemma prims_of vs : Forall (fun v => exists p, v = VPrim p /\ prim_ok p) vs -> exists ps, vs = map VPrim ps /\ Forall prim_ok ps.
Proof.
  induction 1 as [|v vs (p & -> & O) _ (ps & -> & F)]; [exists []; auto|]. exists (p :: ps). auto.
Qed.
Lemma decode_value_ok v pre rest : flat v -> ~ array_of_eight v ->
  decode_value (at_ pre (format v ++ rest)) = Ok (v, at_ (pre ++ format v) rest).
Proof.
  intros Fl Ne. unfold decode_value. destruct v as [p|vs].
  - cbn [format]. destruct (prim_format_nonempty p) as (b & bs & Ef). rewrite at_eof. rewrite Ef at 1. cbn [app].
    rewrite peek_prim by exact Fl. cbn [bind]. rewrite decode_prim_ok by exact Fl. cbn [bind]. destruct p; reflexivity.
  - destruct Fl as [L F]. destruct (prims_of vs F) as (ps & -> & O). unfold array_of_eight in Ne.
    replace (nlen (map VPrim ps)) with (nlen ps) in L, Ne by (unfold nlen; now rewrite map_length).
    assert (P : peek_kind (at_ pre (format (VVec (map VPrim ps)) ++ rest)) = Ok KArray).
    { cbn [format app]. unfold peek_kind. rewrite at_peek. cbn [bind]. apply kind_array. unfold nlen in *. rewrite map_length. exact L. }
    rewrite P. cbn [bind]. rewrite at_eof. cbn [format app]. exact (decode_array_ok ps pre rest O L Ne).
Qed.
Lemma format_nonempty v : exists b bs, format v = b :: bs.
Proof. destruct v; [apply prim_format_nonempty|cbn; eauto]. Qed.
Lemma next_ok v pre rest : flat v -> ~ array_of_eight v ->
  calldata_next (at_ pre (format v ++ rest)) = Some (Some (v, at_ (pre ++ format v) rest)).
Proof.
  intros F N8. unfold calldata_next. rewrite at_eof. destruct (format_nonempty v) as (b & bs & E). rewrite E at 1. cbn [app].
  now rewrite decode_value_ok.
Qed.
Lemma next_end pre : calldata_next (at_ pre []) = Some None.
Proof. unfold calldata_next. now rewrite at_eof. Qed.
Lemma next_values_ok vs : forall pre rest, Forall flat vs -> Forall (fun v => ~ array_of_eight v) vs ->
  next_values (length vs) (at_ pre (flat_map format vs ++ rest)) = Some (vs, at_ (pre ++ flat_map format vs) rest).
Proof.
  induction vs as [|v vs IH]; intros pre rest F N8.
  - cbn. now rewrite app_nil_r.
  - apply Forall_cons_iff in F. destruct F as [Fv F]. apply Forall_cons_iff in N8. destruct N8 as [Nv N8].
    cbn [length next_values flat_map]. rewrite <- app_assoc, next_ok by assumption. cbn [obind]. rewrite IH by assumption. cbn [obind].
    now rewrite <- app_assoc.
Qed.

(** ** Arrays of eight *)
Lemma decode_elements_full ps : forall vs cap l pre rest, Forall prim_ok ps -> holds vs cap l -> cap < nlen l + nlen ps ->
  decode_elements (length ps) vs (at_ pre (flat_map prim_format ps ++ rest)) = Panic.
Proof.
  induction ps as [|p ps IH]; intros vs cap l pre rest F H L.
  - destruct H as (_ & _ & H & _). change (nlen (@nil primitive)) with 0 in L. lia.
  - apply Forall_cons_iff in F. destruct F as [Op F]. rewrite nlen_cons in L. cbn [length decode_elements flat_map].
    rewrite <- app_assoc, decode_prim_ok by exact Op. cbn [bind].
    destruct (N.lt_ge_cases (nlen l) cap) as [G|G]; [|now rewrite (holds_push_full vs cap l _ H G)].
    destruct (holds_push vs cap l (VPrim p) H G) as (v1 & -> & H1). apply (IH v1 cap (l ++ [VPrim p])); auto.
    rewrite nlen_app. change (nlen [VPrim p]) with 1. lia.
Qed.
Lemma decode_value_eight v pre rest : flat v -> array_of_eight v -> decode_value (at_ pre (format v ++ rest)) = Panic.
Proof.
  intros Fl Ne. destruct v as [p|vs]; [contradiction Ne|]. destruct Fl as [L F]. destruct (prims_of vs F) as (ps & -> & O). unfold array_of_eight in Ne.
  unfold decode_value. assert (P : peek_kind (at_ pre (format (VVec (map VPrim ps)) ++ rest)) = Ok KArray).
  { cbn [format app]. unfold peek_kind. rewrite at_peek. cbn [bind]. apply kind_array. exact L. }
  rewrite P. cbn [bind]. rewrite at_eof. cbn [format app]. rewrite flat_map_prims, Ne. change (array_mark 8) with 7.
  unfold decode_array. rewrite at_eof, at_read_byte. cbn [bind].
  change (pick 7 [([L_ARR_0], 0); ([L_ARR_1], 1); ([L_ARR_2], 2); ([L_ARR_3], 3); ([L_ARR_4], 4); ([L_ARR_5], 5); ([L_ARR_6], 6); ([L_ARR_7], 7); ([L_ARR_8], 8); ([L_ARR_9], 9); ([L_ARR_10], 10)]) with (@Ok decode_error N 8).
  cbn [bind]. unfold nlen in Ne. rewrite map_length in Ne. replace (N.to_nat 8) with (length ps) by lia.
  rewrite (decode_elements_full ps (vec_with_capacity 7) 7 [] _ rest O (holds_new 7)); [reflexivity|]. change (nlen (@nil value)) with 0. unfold nlen. lia.
Qed.
Lemma next_eight v pre rest : flat v -> array_of_eight v -> calldata_next (at_ pre (format v ++ rest)) = None.
Proof.
  intros F N8. unfold calldata_next. rewrite at_eof. destruct (format_nonempty v) as (b & bs & E). rewrite E at 1. cbn [app].
  now rewrite decode_value_eight.
Qed.
Lemma eight_dec v : {array_of_eight v} + {~ array_of_eight v}.
Proof. destruct v as [p|vs]; cbn; [right; tauto|apply N.eq_dec]. Qed.
Lemma next_values_eight vs : forall pre rest, Forall flat vs -> Exists array_of_eight vs ->
  next_values (length vs) (at_ pre (flat_map format vs ++ rest)) = None.
Proof.
  induction vs as [|v vs IH]; intros pre rest F X; [inversion X|]. apply Forall_cons_iff in F. destruct F as [Fv F].
  cbn [length next_values flat_map]. rewrite <- app_assoc. destruct (eight_dec v) as [E|E].
  - now rewrite next_eight.
  - rewrite next_ok by assumption. cbn [obind]. rewrite IH; auto. now inversion X.
Qed.
(** ** No encoding begins another one *)
Lemma prims_split ps1 : forall ps2 r1 r2, length ps1 = length ps2 -> Forall prim_ok ps1 -> Forall prim_ok ps2 ->
  flat_map prim_format ps1 ++ r1 = flat_map prim_format ps2 ++ r2 -> ps1 = ps2 /\ r1 = r2.
Proof.
  induction ps1 as [|p1 ps1 IH]; intros [|p2 ps2] r1 r2 L F1 F2 E; try discriminate L; [auto|].
  apply Forall_cons_iff in F1 as [O1 F1]. apply Forall_cons_iff in F2 as [O2 F2]. cbn [flat_map] in E. rewrite <- !app_assoc in E.
  pose proof (decode_prim_ok p1 [] (flat_map prim_format ps1 ++ r1) O1) as D1. pose proof (decode_prim_ok p2 [] (flat_map prim_format ps2 ++ r2) O2) as D2.
  rewrite E, D2 in D1. injection D1 as -> _. apply app_inv_head in E. destruct (IH ps2 r1 r2 ltac:(cbn in L; lia) F1 F2 E) as [-> ->]. auto.
Qed.
Lemma format_split v1 v2 r1 r2 : flat v1 -> flat v2 -> format v1 ++ r1 = format v2 ++ r2 -> v1 = v2 /\ r1 = r2.
Proof.
  intros F1 F2 E. enough (X : v1 = v2) by (subst v2; split; [reflexivity|]; now apply app_inv_head in E).
  destruct (eight_dec v1) as [E1|E1], (eight_dec v2) as [E2|E2].
  - destruct v1 as [p|vs1]; [contradiction E1|]. destruct v2 as [p|vs2]; [contradiction E2|].
    destruct F1 as [_ F1], F2 as [_ F2]. destruct (prims_of _ F1) as (ps1 & -> & O1). destruct (prims_of _ F2) as (ps2 & -> & O2).
    cbn [array_of_eight] in E1, E2. unfold nlen in E1, E2. rewrite map_length in E1, E2. cbn [format app] in E. injection E as _ E. rewrite !flat_map_prims in E.
    destruct (prims_split ps1 ps2 r1 r2 ltac:(lia) O1 O2 E) as [-> _]. reflexivity.
  - pose proof (decode_value_eight v1 [] r1 F1 E1) as D1. pose proof (decode_value_ok v2 [] r2 F2 E2) as D2. rewrite E, D2 in D1. discriminate D1.
  - pose proof (decode_value_ok v1 [] r1 F1 E1) as D1. pose proof (decode_value_eight v2 [] r2 F2 E2) as D2. rewrite E, D2 in D1. discriminate D1.
  - pose proof (decode_value_ok v1 [] r1 F1 E1) as D1. pose proof (decode_value_ok v2 [] r2 F2 E2) as D2. rewrite E, D2 in D1. now injection D1 as ->.
Qed.
Lemma formats_split vs1 : forall vs2, length vs1 = length vs2 -> Forall flat vs1 -> Forall flat vs2 -> forall r1 r2,
  flat_map format vs1 ++ r1 = flat_map format vs2 ++ r2 -> vs1 = vs2 /\ r1 = r2.
Proof.
  induction vs1 as [|v1 vs1 IH]; intros [|v2 vs2] L F1 F2 r1 r2 E; try discriminate L; [auto|].
  apply Forall_cons_iff in F1 as [O1 F1]. apply Forall_cons_iff in F2 as [O2 F2]. cbn [flat_map] in E. rewrite <- !app_assoc in E.
  destruct (format_split v1 v2 _ _ O1 O2 E) as [-> E']. destruct (IH vs2 ltac:(cbn in L; lia) F1 F2 r1 r2 E') as [-> ->]. auto.
Qed.

Lemma formats_inj vs1 : forall vs2, Forall flat vs1 -> Forall flat vs2 -> flat_map format vs1 = flat_map format vs2 -> vs1 = vs2.
Proof.
  induction vs1 as [|v1 vs1 IH]; intros [|v2 vs2] F1 F2 E; [auto| | |].
  - cbn [flat_map] in E. destruct (format_nonempty v2) as (b & bs & Ef). rewrite Ef in E. discriminate E.
  - cbn [flat_map] in E. destruct (format_nonempty v1) as (b & bs & Ef). rewrite Ef in E. discriminate E.
  - apply Forall_cons_iff in F1 as [O1 F1]. apply Forall_cons_iff in F2 as [O2 F2]. cbn [flat_map] in E.
    destruct (format_split v1 v2 _ _ O1 O2 E) as [-> E']. f_equal. now apply IH.
Qed.

(* ------------------------------------------------------------------------- *)
(** * Decoding arbitrary bytes *)

Lemma Forall_firstn' {A} (P : A -> Prop) n l : Forall P l -> Forall P (firstn n l).
Proof. intros F. rewrite <- (firstn_skipn n l) in F. apply Forall_app in F. tauto. Qed.
Lemma Forall_skipn' {A} (P : A -> Prop) n l : Forall P l -> Forall P (skipn n l).
Proof. intros F. rewrite <- (firstn_skipn n l) in F. apply Forall_app in F. tauto. Qed.
Definition advances (c c' : cursor) : Prop := cu_bytes c' = cu_bytes c /\ cu_offset c < cu_offset c' <= nlen (cu_bytes c).
Definition moves (c c' : cursor) : Prop := cu_bytes c' = cu_bytes c /\ cu_offset c <= cu_offset c' <= nlen (cu_bytes c).
Lemma advances_moves a b c : advances a b -> moves b c -> advances a c.
Proof. unfold advances, moves. intros (A & B) (C & D). rewrite A in *. split; [congruence|lia]. Qed.
Lemma read_byte_any c b c' : bytes_ok (cu_bytes c) -> cu_read_byte c = Ok (b, c') -> advances c c' /\ is_byte b.
Proof.
  intros B E. unfold cu_read_byte, cu_peek, is_eof in E. destruct (N.leb_spec (nlen (cu_bytes c)) (cu_offset c)); [discriminate E|].
  destruct (nth_error (cu_bytes c) (N.to_nat (cu_offset c))) as [b'|] eqn:Nt; [|discriminate E]. cbn [bind] in E. injection E as <- <-.
  split; [split; [reflexivity|cbn; lia]|]. apply nth_error_In in Nt. unfold bytes_ok in B. rewrite Forall_forall in B. auto.
Qed.
Lemma read_bytes_any c n s c' : bytes_ok (cu_bytes c) -> cu_offset c <= nlen (cu_bytes c) -> cu_read_bytes c n = Ok (s, c') ->
  moves c c' /\ bytes_ok s /\ nlen s = n.
Proof.
  intros B O E. unfold cu_read_bytes in E. destruct (N.leb_spec (cu_offset c + n) (nlen (cu_bytes c))); [|discriminate E]. injection E as <- <-.
  split; [split; [reflexivity|cbn; lia]|]. split; [apply Forall_firstn', Forall_skipn', B|].
  unfold nlen in *. rewrite firstn_length, skipn_length. lia.
Qed.
Lemma read_num_any c n num c' : bytes_ok (cu_bytes c) -> cu_offset c <= nlen (cu_bytes c) -> read_num c n = Ok (num, c') -> moves c c' /\ num < 2 ^ 64.
Proof.
  intros B O E. unfold read_num in E. destruct ((0 <? n) && (n <=? 8)) eqn:X; [|discriminate E].
  destruct (cu_read_bytes c n) as [[s c1]| |] eqn:R; cbn [bind] in E; try discriminate E. injection E as <- <-.
  destruct (read_bytes_any c n s c1 B O R) as (M & Bs & Ls). split; [exact M|]. rewrite be_value_zeros.
  eapply N.lt_le_trans; [apply be_value_bound, Bs|]. rewrite Ls. change (2 ^ 64) with (256 ^ 8). apply N.pow_le_mono_r; lia.
Qed.

Ltac step E R := match type of E with
  | context [cu_read_byte ?c] => destruct (cu_read_byte c) as [[? ?]| |] eqn:R
  | context [read_num ?c ?n] => destruct (read_num c n) as [[? ?]| |] eqn:R
  | context [pick ?b ?l] => destruct (pick b l) as [?| |] eqn:R
  end; cbn [bind] in E; try discriminate E.
Lemma advances_fits c c' : advances c c' -> bytes_ok (cu_bytes c) -> bytes_ok (cu_bytes c') /\ cu_offset c' <= nlen (cu_bytes c').
Proof. intros (E & L) B. rewrite E. split; [exact B|lia]. Qed.
Lemma decode_amount_any c p c' : bytes_ok (cu_bytes c) -> decode_amount c = Ok (p, c') -> advances c c' /\ prim_ok p.
Proof.
  intros B E. unfold decode_amount in E. step E R. step E R2. step E R3. injection E as <- <-.
  destruct (read_byte_any _ _ _ B R) as [A _]. destruct (advances_fits _ _ A B) as [B2 O2].
  destruct (read_num_any _ _ _ _ B2 O2 R3) as [M L]. split; [eapply advances_moves; eauto|exact L].
Qed.
Lemma decode_int_any t c z c' : bytes_ok (cu_bytes c) -> decode_int t c = Ok (z, c') -> advances c c' /\ in_range t z.
Proof.
  intros B E. unfold decode_int in E.
  assert (X : forall s (d : dec (Z * cursor)) , (forall z' c1, d = Ok (z', c1) -> advances c c1 /\ in_range s z') ->
     (ity_signed t = true -> s = t) ->
     (let* (z, c) := d in Ok (if ity_signed t then z else as_ity t z, c)) = Ok (z, c') -> advances c c' /\ in_range t z).
  { intros s d D S E'. destruct d as [[z1 c1]| |]; cbn [bind] in E'; try discriminate E'. injection E' as <- <-.
    destruct (D z1 c1 eq_refl) as [A R]. split; [exact A|]. destruct (ity_signed t); [now rewrite <- (S eq_refl)|apply as_ity_range]. }
  destruct t; [eapply (X I8)|eapply (X I8)|eapply (X I16)|eapply (X I16)|eapply (X I32)|eapply (X I32)|eapply (X I64)|eapply (X I64)];
    try exact E; try reflexivity; try discriminate;
    intros z' c1 E'; unfold decode_i8, decode_i16, decode_i32, decode_i64 in E'; step E' R;
    try (match type of E' with context [one_of ?b ?l] => destruct (one_of b l) eqn:R2; cbn [bind] in E'; try discriminate E' end);
    try step E' R2; try step E' R3; injection E' as <- <-;
    destruct (read_byte_any _ _ _ B R) as [A _]; destruct (advances_fits _ _ A B) as [B2 O2];
    match goal with H : read_num _ _ = Ok _ |- _ => destruct (read_num_any _ _ _ _ B2 O2 H) as [M L] end;
    (split; [eapply advances_moves; eauto|apply as_ity_range]).
Qed.
Lemma decode_prim_any c p c' : bytes_ok (cu_bytes c) -> decode_primitive c = Ok (p, c') -> advances c c' /\ prim_ok p.
Proof.
  intros B E. unfold decode_primitive in E. destruct (peek_kind c) as [k| |]; cbn [bind] in E; try discriminate E.
  destruct k as [| | | | |t|]; try discriminate E.
  - step E R. destruct (_ =? _) in E; try discriminate E. injection E as <- <-. destruct (read_byte_any _ _ _ B R). cbn. auto.
  - step E R. destruct (_ =? _) in E; try discriminate E. injection E as <- <-. destruct (read_byte_any _ _ _ B R). cbn. auto.
  - destruct (cu_read_byte c) as [[n c0]| |] eqn:R; cbn [bind] in E; try discriminate E. destruct (read_byte_any _ _ _ B R).
    destruct (n =? L_BOOL_FALSE); [injection E as <- <-; cbn; auto|]. destruct (n =? L_BOOL_TRUE); [injection E as <- <-; cbn; auto|discriminate E].
  - step E R. destruct (_ =? _) in E; try discriminate E.
    destruct (read_byte_any _ _ _ B R) as [A _]. destruct (advances_fits _ _ A B) as [B2 O2].
    destruct (cu_read_bytes c0 20) as [[s c2]| |] eqn:R2; cbn [bind] in E; try discriminate E. injection E as <- <-.
    destruct (read_bytes_any _ _ _ _ B2 O2 R2) as (M & Bs & Ls). split; [eapply advances_moves; eauto|]. split; [exact Bs|].
    unfold nlen in Ls. lia.
  - eapply decode_amount_any; eauto.
  - destruct (decode_int t c) as [[z c1]| |] eqn:R; cbn [bind] in E; try discriminate E. injection E as <- <-. eapply decode_int_any; eauto.
Qed.
Lemma moves_refl c : cu_offset c <= nlen (cu_bytes c) -> moves c c.
Proof. intros L. split; [reflexivity|lia]. Qed.
Lemma decode_elements_any n : forall vs cap l c vs' c', bytes_ok (cu_bytes c) -> cu_offset c <= nlen (cu_bytes c) -> holds vs cap l ->
  decode_elements n vs c = Ok (vs', c') ->
  moves c c' /\ exists ps, length ps = n /\ Forall prim_ok ps /\ holds vs' cap (l ++ map VPrim ps).
Proof.
  induction n as [|n IH]; intros vs cap l c vs' c' B O H E.
  - injection E as <- <-. split; [now apply moves_refl|]. exists []. cbn. rewrite app_nil_r. auto.
  - cbn [decode_elements] in E. destruct (decode_primitive c) as [[p c1]| |] eqn:D; cbn [bind] in E; try discriminate E.
    destruct (decode_prim_any _ _ _ B D) as [A Op]. destruct (advances_fits _ _ A B) as [B1 O1].
    destruct (vec_push vs (VPrim p)) as [v1|] eqn:Pu; [|discriminate E].
    assert (L : nlen l < cap). { destruct (N.lt_ge_cases (nlen l) cap) as [|G]; auto. rewrite (holds_push_full vs cap l _ H G) in Pu. discriminate Pu. }
    destruct (holds_push vs cap l (VPrim p) H L) as (v1' & Pu' & H1). rewrite Pu in Pu'. injection Pu' as <-.
    destruct (IH v1 cap _ c1 vs' c' B1 O1 H1 E) as [M (ps & Lp & Fp & H2)]. split.
    + destruct A as [A1 A2], M as [M1 M2]. rewrite A1 in *. split; [exact M1|lia].
    + exists (p :: ps). cbn [length map]. rewrite <- app_assoc in H2. auto.
Qed.
Lemma pick_array b n : pick b [([L_ARR_0], 0); ([L_ARR_1], 1); ([L_ARR_2], 2); ([L_ARR_3], 3); ([L_ARR_4], 4); ([L_ARR_5], 5); ([L_ARR_6], 6); ([L_ARR_7], 7); ([L_ARR_8], 8); ([L_ARR_9], 9); ([L_ARR_10], 10)] = Ok n -> n <= 10.
Proof.
  cbn [pick]. intros E. repeat match type of E with context [one_of ?b ?l] => destruct (one_of b l); [injection E as <-; lia|] end. discriminate E.
Qed.
Lemma decode_array_any c v c' : bytes_ok (cu_bytes c) -> decode_array c = Ok (v, c') -> advances c c' /\ flat v.
Proof.
  intros B E. unfold decode_array in E. destruct (is_eof c); [discriminate E|]. destruct (cu_read_byte c) as [[b c0]| |] eqn:R; cbn [bind] in E; try discriminate E.
  destruct (pick b _) as [k| |] eqn:R2 in E; cbn [bind] in E; try discriminate E.
  destruct (read_byte_any _ _ _ B R) as [A _]. destruct (advances_fits _ _ A B) as [B1 O1].
  destruct (decode_elements (N.to_nat k) (vec_with_capacity b) c0) as [[vs c2]| |] eqn:D; cbn [bind] in E; try discriminate E.
  destruct (decode_elements_any _ _ _ _ _ _ _ B1 O1 (holds_new b) D) as [M (ps & Lp & Fp & H)]. cbn [app] in H.
  rewrite (holds_slice vs b _ H) in E. injection E as <- <-. split; [eapply advances_moves; eauto|].
  apply pick_array in R2. split; [unfold nlen; rewrite map_length, Lp; lia|].
  apply Forall_map. eapply Forall_impl; [|exact Fp]. intros p Op. eauto.
Qed.
Lemma decode_value_any c v c' : bytes_ok (cu_bytes c) -> decode_value c = Ok (v, c') -> advances c c' /\ flat v.
Proof.
  intros B E. unfold decode_value in E. destruct (is_eof c); [discriminate E|].
  destruct (peek_kind c) as [k| |]; cbn [bind] in E; try discriminate E.
  assert (P : (let* (p, c) := decode_primitive c in Ok (VPrim p, c)) = Ok (v, c') -> advances c c' /\ flat v).
  { destruct (decode_primitive c) as [[p c1]| |] eqn:D; cbn [bind]; intros E'; try discriminate E'. injection E' as <- <-.
    destruct (decode_prim_any _ _ _ B D). auto. }
  destruct k; auto. eapply decode_array_any; eauto.
Qed.
Lemma next_values_any n : forall c vs c', bytes_ok (cu_bytes c) -> cu_offset c <= nlen (cu_bytes c) -> next_values n c = Some (vs, c') ->
  moves c c' /\ length vs = n /\ Forall flat vs /\ cu_offset c + N.of_nat n <= cu_offset c'.
Proof.
  induction n as [|n IH]; intros c vs c' B O E.
  - injection E as <- <-. split; [now apply moves_refl|]. cbn. split; [auto|]. split; [constructor|lia].
  - cbn [next_values] in E. unfold calldata_next in E. destruct (is_eof c); [discriminate E|].
    destruct (decode_value c) as [[v c1]| |] eqn:D; try discriminate E. cbn [obind] in E.
    destruct (decode_value_any _ _ _ B D) as [A F]. destruct (advances_fits _ _ A B) as [B1 O1].
    destruct (next_values n c1) as [[vs1 c2]|] eqn:Nx; [|discriminate E]. cbn [obind] in E. injection E as <- <-.
    destruct (IH c1 vs1 c2 B1 O1 Nx) as (M & L & Fs & Of). destruct A as [A1 A2], M as [M1 M2]. rewrite A1 in *.
    split; [split; [exact M1|lia]|]. split; [cbn; lia|]. split; [constructor; auto|lia].
Qed.

(* ------------------------------------------------------------------------- *)
(** * Rust values *)

Lemma typed_flat t r : typed t r -> flat (rust_value r).
Proof.
  destruct t as [|t|t|t n], r as [|p|[p|]|l]; cbn [typed rust_value flat prim_ok]; try tauto; try (intros [O _]; exact O).
  intros (E & L & F). split; [unfold nlen in *; rewrite map_length; lia|]. apply Forall_map. eapply Forall_impl; [|exact F]. intros p [O _]. eauto.
Qed.
Lemma encode_rust_value r w : encode_rust r w = encode_value (rust_value r) w.
Proof.
  destruct r as [|p|[p|]|l]; try reflexivity. cbn [encode_rust rust_value encode_value]. unfold encode_slice.
  replace (nlen (map VPrim l)) with (nlen l) by (unfold nlen; now rewrite map_length).
  destruct (ensure (nlen l <? 11)); [|reflexivity]. cbn [obind]. destruct (vec_push w (layout_array (nlen l))) as [w1|]; [|reflexivity]. cbn [obind].
  generalize (Some w1). induction l as [|p l IH]; intros o; [reflexivity|]. cbn [map fold_left]. apply IH.
Qed.
Lemma appends_rust t r : typed t r -> appends (encode_rust r) (format (rust_value r)).
Proof. intros T. apply (appends_ext (encode_value (rust_value r))); [intros w; symmetry; apply encode_rust_value|]. eapply appends_value, typed_flat; eauto. Qed.
Lemma appends_tuple ts rs : Forall2 typed ts rs -> appends (encode_tuple rs) (flat_map format (map rust_value rs)).
Proof.
  intros F. replace (flat_map format (map rust_value rs)) with (flat_map (fun r => format (rust_value r)) rs)
    by (clear; induction rs as [|r rs IH]; [reflexivity|]; cbn; now rewrite IH).
  apply (appends_fold encode_rust (fun r => format (rust_value r))). induction F as [|t r ts rs T _ IH]; constructor; auto. eapply appends_rust; eauto.
Qed.
Lemma prim_is_typed t p : prim_typed t p -> prim_is t p = true.
Proof.
  intros [_ T]. destruct t as [| | |t]; cbn in T; destruct T as [x ->]; try reflexivity. destruct t; reflexivity.
Qed.
Lemma prim_typed_not_none t p : prim_typed t p -> p <> PNone.
Proof. intros [_ T]. destruct t as [| | |t]; cbn in T; destruct T as [x ->]; discriminate. Qed.
Lemma into_prims_typed t l : Forall (prim_typed t) l -> into_prims t (map VPrim l) = Some l.
Proof.
  induction 1 as [|p l T _ IH]; [reflexivity|]. cbn [map into_prims into_prim]. rewrite (prim_is_typed t p T). cbn [obind]. now rewrite IH.
Qed.
Lemma from_value_typed t r : typed t r -> from_value t (rust_value r) = Some r.
Proof.
  destruct t as [|t|t|t n], r as [|p|[p|]|l]; cbn [typed]; intros T; try contradiction T; cbn [rust_value from_value]; try reflexivity.
  - cbn [into_prim]. now rewrite (prim_is_typed t p T).
  - pose proof (prim_typed_not_none t p T) as NN. cbn [into_prim]. rewrite (prim_is_typed t p T). destruct p; try reflexivity. contradiction.
  - destruct T as (E & _ & F). unfold ensure, nlen. rewrite map_length. unfold nlen in E. rewrite E, N.eqb_refl. cbn [obind].
    now rewrite into_prims_typed.
Qed.
Lemma from_values_typed ts rs : Forall2 typed ts rs -> from_values ts (map rust_value rs) = Some rs.
Proof.
  induction 1 as [|t r ts rs T _ IH]; [reflexivity|]. cbn [map from_values]. rewrite from_value_typed by exact T. cbn [obind]. now rewrite IH.
Qed.
Lemma next_tuple_ok ts rs pre rest : Forall2 typed ts rs -> Forall (fun r => ~ array_of_eight (rust_value r)) rs ->
  next_tuple ts (at_ pre (flat_map format (map rust_value rs) ++ rest)) = Some (rs, at_ (pre ++ flat_map format (map rust_value rs)) rest).
Proof.
  intros F N8. unfold next_tuple. assert (Ln : length ts = length rs) by (clear -F; induction F; cbn; congruence). rewrite Ln, <- (map_length rust_value rs).
  rewrite next_values_ok; [cbn [obind]; now rewrite from_values_typed| |now apply Forall_map].
  apply Forall_map. induction F as [|t r ts rs T _ IH]; constructor; [eapply typed_flat; eauto|].
  apply IH; [inversion N8; auto|now injection Ln].
Qed.

(** ** Sizes *)
Lemma prim_size p : prim_ok p -> prim_byte_size p = nlen (prim_format p).
Proof.
  intros O. destruct p as [| |b|a|n|t z]; try reflexivity; cbn [prim_byte_size prim_format]; rewrite nlen_cons.
  - destruct O as [_ O]. unfold nlen. rewrite O. reflexivity.
  - rewrite number_length, u64_byte_size_width by exact O. lia.
  - unfold int_byte_size. rewrite to_u64_spec, u64_byte_size_width by apply complement_u64. rewrite number_length. lia.
Qed.
Lemma prim_max t p : prim_typed t p -> nlen (prim_format p) <= prim_max_byte_size t.
Proof.
  intros [O T]. destruct t as [| | |t]; cbn in T; destruct T as [x ->]; cbn [prim_format prim_max_byte_size].
  - destruct x; cbn; lia.
  - rewrite nlen_cons, number_length. pose proof (width_8 x O). change (u64_byte_size u64_max) with 9. lia.
  - rewrite nlen_cons. destruct O as [_ O]. unfold nlen. rewrite O. cbn. lia.
  - rewrite nlen_cons, number_length, max_size. pose proof (width_ity t x). lia.
Qed.
Lemma rust_size t r n : typed t r -> byte_size r = Some n -> ~ is_array r -> n = nlen (format (rust_value r)).
Proof.
  intros T E A. pose proof (typed_flat t r T) as F. destruct r as [|p|[p|]|l]; cbn [byte_size rust_value format flat is_array] in *; try tauto;
    injection E as <-; try reflexivity; now apply prim_size.
Qed.
Lemma rust_max t r : typed t r -> nlen (format (rust_value r)) <= max_byte_size t.
Proof.
  destruct t as [|t|t|t n], r as [|p|[p|]|l]; cbn [typed]; intros T; try contradiction T; cbn [rust_value format max_byte_size].
  - cbn. lia.
  - now apply prim_max.
  - now apply prim_max.
  - cbn [prim_format]. change (nlen [mark 2 0]) with 1. destruct t as [| | |t]; cbn [prim_max_byte_size].
    + discriminate.
    + change (u64_byte_size u64_max) with 9. lia.
    + discriminate.
    + rewrite max_size. lia.
  - destruct T as (E & L & F). rewrite nlen_cons, flat_map_prims. enough (nlen (flat_map prim_format l) <= prim_max_byte_size t * nlen l) by nia.
    clear E L. induction F as [|p l P _ IH]; [cbn; lia|]. cbn [flat_map]. rewrite nlen_app, nlen_cons. pose proof (prim_max t p P). nia.
Qed.
Lemma array_size_aborts l : array_byte_size l = None.
Proof.
  unfold array_byte_size, ensure. destruct (N.ltb_spec (nlen l) 11) as [L|]; [|reflexivity]. cbn [obind].
  assert (G : forall r i acc, i <= nlen l -> nlen l < i + N.of_nat r -> array_byte_size_loop r i l acc = None).
  { clear L. induction r as [|r IH]; intros i acc L1 L2; [lia|]. cbn [array_byte_size_loop]. replace (i <=? nlen l) with true by lia.
    destruct (N.eq_dec i (nlen l)) as [->|Ne].
    - unfold nlen. rewrite Nat2N.id. replace (nth_error l (length l)) with (@None primitive); [reflexivity|]. symmetry. apply nth_error_None. lia.
    - destruct (nth_error l (N.to_nat i)); [|reflexivity]. cbn [obind]. apply IH; lia. }
  apply G; lia.
Qed.
Lemma tuple_size ts rs n : Forall2 typed ts rs -> Forall (fun r => ~ is_array r) rs -> tuple_byte_size rs = Some n ->
  n = nlen (flat_map format (map rust_value rs)).
Proof.
  intros F. revert n. induction F as [|t r ts rs T _ IH]; intros n A E; [injection E as <-; reflexivity|].
  apply Forall_cons_iff in A. destruct A as [Ar A]. unfold tuple_byte_size in *. cbn [fold_right map flat_map] in *.
  destruct (byte_size r) as [s|] eqn:Es; [|discriminate E]. cbn [obind] in E.
  destruct (fold_right _ (Some 0) rs) as [m|] eqn:Em in E; [|discriminate E]. cbn [obind] in E. injection E as <-.
  rewrite nlen_app. f_equal; [eapply rust_size; eauto|now apply IH].
Qed.
Lemma tuple_size_defined rs : Forall (fun r => ~ is_array r) rs -> exists n, tuple_byte_size rs = Some n.
Proof.
  induction 1 as [|r rs A _ [n E]]; [exists 0; reflexivity|]. unfold tuple_byte_size in *. cbn [fold_right]. rewrite E.
  destruct r as [|p|[p|]|l]; cbn [byte_size is_array obind] in *; try tauto; eauto.
Qed.
Lemma tuple_max ts rs : Forall2 typed ts rs -> nlen (flat_map format (map rust_value rs)) <= tuple_max_byte_size ts.
Proof.
  induction 1 as [|t r ts rs T _ IH]; [cbn; lia|]. unfold tuple_max_byte_size in *. cbn [fold_right map flat_map]. rewrite nlen_app.
  pose proof (rust_max t r T). lia.
Qed.

(* ------------------------------------------------------------------------- *)
(** * No accepted encoding is shorter than the encoder's *)

Lemma read_byte_len c b c' : cu_read_byte c = Ok (b, c') -> cu_offset c' = cu_offset c + 1.
Proof.
  unfold cu_read_byte. destruct (cu_peek c); cbn [bind]; intros E; try discriminate E. now injection E as _ <-.
Qed.
Lemma read_bytes_len c n s c' : cu_read_bytes c n = Ok (s, c') -> cu_offset c' = cu_offset c + n.
Proof. unfold cu_read_bytes. destruct (_ <=? _); intros E; try discriminate E. now injection E as _ <-. Qed.
Lemma read_num_len c n num c' : bytes_ok (cu_bytes c) -> cu_offset c <= nlen (cu_bytes c) -> read_num c n = Ok (num, c') ->
  cu_offset c' = cu_offset c + n /\ width num <= n.
Proof.
  intros B O E. unfold read_num in E. destruct ((0 <? n) && (n <=? 8)) eqn:X; [|discriminate E].
  destruct (cu_read_bytes c n) as [[s c1]| |] eqn:R; cbn [bind] in E; try discriminate E. injection E as <- <-.
  destruct (read_bytes_any c n s c1 B O R) as (_ & Bs & Ls). split; [now apply read_bytes_len in R|].
  apply width_le; [lia|]. rewrite be_value_zeros. eapply N.lt_le_trans; [apply be_value_bound, Bs|]. rewrite Ls. lia.
Qed.
Lemma width_mono a b : a <= b -> width a <= width b.
Proof. intros L. apply width_le; [apply width_pos|]. eapply N.le_lt_trans; [exact L|]. apply width_le; [apply width_pos|lia]. Qed.
Lemma complement_cast t s n : ity_bits s = ity_bits t -> complement t (as_ity s (Z.of_N n)) <= n.
Proof.
  intros E. tables. rewrite <- E, as_ity_mod. assert (0 < 2 ^ ity_bits s)%Z by (destruct s; reflexivity).
  pose proof (Z.mod_le (Z.of_N n) (2 ^ ity_bits s) ltac:(lia) ltac:(lia)). pose proof (Z.mod_pos_bound (Z.of_N n) (2 ^ ity_bits s) ltac:(lia)). lia.
Qed.
Lemma decode_int_min t c z c' : bytes_ok (cu_bytes c) -> decode_int t c = Ok (z, c') ->
  cu_offset c + nlen (prim_format (PInt t z)) <= cu_offset c'.
Proof.
  intros B E. cbn [prim_format]. rewrite nlen_cons, number_length. unfold decode_int in E.
  assert (X : forall s (d : dec (Z * cursor)), ity_bits s = ity_bits t ->
     (forall z' c1, d = Ok (z', c1) -> exists n num, cu_offset c1 = cu_offset c + 1 + n /\ width num <= n /\ z' = as_ity s (Z.of_N num)) ->
     (let* (z, c) := d in Ok (if ity_signed t then z else as_ity t z, c)) = Ok (z, c') -> cu_offset c + (1 + width (complement t z)) <= cu_offset c').
  { intros s d Bt D E'. destruct d as [[z1 c1]| |]; cbn [bind] in E'; try discriminate E'. injection E' as <- <-.
    destruct (D z1 c1 eq_refl) as (n & num & Of & W & ->).
    assert (complement t (if ity_signed t then as_ity s (Z.of_N num) else as_ity t (as_ity s (Z.of_N num))) <= num).
    { destruct (ity_signed t); [now apply complement_cast|]. rewrite as_ity_again by congruence. now apply complement_cast. }
    pose proof (width_mono _ _ H). lia. }
  destruct t; [eapply (X I8)|eapply (X I8)|eapply (X I16)|eapply (X I16)|eapply (X I32)|eapply (X I32)|eapply (X I64)|eapply (X I64)];
    try exact E; try reflexivity;
    intros z' c1 E'; unfold decode_i8, decode_i16, decode_i32, decode_i64 in E'; step E' R;
    try (match type of E' with context [one_of ?b ?l] => destruct (one_of b l) eqn:R2; cbn [bind] in E'; try discriminate E' end);
    try step E' R2; try step E' R3; injection E' as <- <-;
    destruct (read_byte_any _ _ _ B R) as [A _]; destruct (advances_fits _ _ A B) as [B2 O2]; apply read_byte_len in R;
    match goal with H : read_num _ _ = Ok _ |- _ => destruct (read_num_len _ _ _ _ B2 O2 H) as [M L] end;
    rewrite R in M; eauto.
Qed.
Lemma decode_prim_min c p c' : bytes_ok (cu_bytes c) -> decode_primitive c = Ok (p, c') -> cu_offset c + nlen (prim_format p) <= cu_offset c'.
Proof.
  intros B E. unfold decode_primitive in E. destruct (peek_kind c) as [k| |]; cbn [bind] in E; try discriminate E.
  destruct k as [| | | | |t|]; try discriminate E.
  - step E R. destruct (_ =? _) in E; try discriminate E. injection E as <- <-. apply read_byte_len in R. change (nlen (prim_format PNone)) with 1. lia.
  - step E R. destruct (_ =? _) in E; try discriminate E. injection E as <- <-. apply read_byte_len in R. change (nlen (prim_format PUnit)) with 1. lia.
  - destruct (cu_read_byte c) as [[n c0]| |] eqn:R; cbn [bind] in E; try discriminate E. apply read_byte_len in R.
    destruct (n =? L_BOOL_FALSE); [|destruct (n =? L_BOOL_TRUE); [|discriminate E]]; injection E as <- <-; cbn [prim_format]; rewrite nlen_cons, nlen_nil; lia.
  - step E R. destruct (_ =? _) in E; try discriminate E.
    destruct (read_byte_any _ _ _ B R) as [A _]. destruct (advances_fits _ _ A B) as [B2 O2].
    destruct (cu_read_bytes c0 20) as [[s c2]| |] eqn:R2; cbn [bind] in E; try discriminate E. injection E as <- <-.
    destruct (read_bytes_any _ _ _ _ B2 O2 R2) as (M & Bs & Ls). apply read_byte_len in R. apply read_bytes_len in R2.
    cbn [prim_format]. rewrite nlen_cons, Ls. lia.
  - unfold decode_amount in E. step E R. step E R2. step E R3. injection E as <- <-.
    destruct (read_byte_any _ _ _ B R) as [A _]. destruct (advances_fits _ _ A B) as [B2 O2].
    destruct (read_num_len _ _ _ _ B2 O2 R3) as [M L]. apply read_byte_len in R. cbn [prim_format]. rewrite nlen_cons, number_length. lia.
  - destruct (decode_int t c) as [[z c1]| |] eqn:R; cbn [bind] in E; try discriminate E. injection E as <- <-. eapply decode_int_min; eauto.
Qed.
Lemma decode_elements_min n : forall vs cap l c vs' c', bytes_ok (cu_bytes c) -> holds vs cap l -> decode_elements n vs c = Ok (vs', c') ->
  exists l', holds vs' cap (l ++ l') /\ cu_offset c + nlen (flat_map format l') <= cu_offset c'.
Proof.
  induction n as [|n IH]; intros vs cap l c vs' c' B H E.
  - injection E as <- <-. exists []. rewrite app_nil_r. split; [exact H|]. cbn [flat_map]. rewrite nlen_nil. lia.
  - cbn [decode_elements] in E. destruct (decode_primitive c) as [[p c1]| |] eqn:D; cbn [bind] in E; try discriminate E.
    pose proof (decode_prim_min _ _ _ B D) as Mn. destruct (decode_prim_any _ _ _ B D) as [A _]. destruct (advances_fits _ _ A B) as [B1 _].
    destruct (vec_push vs (VPrim p)) as [v1|] eqn:Pu; [|discriminate E].
    assert (L : nlen l < cap). { destruct (N.lt_ge_cases (nlen l) cap) as [|G]; auto. rewrite (holds_push_full vs cap l _ H G) in Pu. discriminate Pu. }
    destruct (holds_push vs cap l (VPrim p) H L) as (v1' & Pu' & H1). rewrite Pu in Pu'. injection Pu' as <-.
    destruct (IH v1 cap _ c1 vs' c' B1 H1 E) as (l' & H2 & M). exists (VPrim p :: l'). rewrite <- app_assoc in H2. split; [exact H2|].
    cbn [flat_map format]. rewrite nlen_app. lia.
Qed.
Lemma decode_value_min c v c' : bytes_ok (cu_bytes c) -> decode_value c = Ok (v, c') -> cu_offset c + nlen (format v) <= cu_offset c'.
Proof.
  intros B E. unfold decode_value in E. destruct (is_eof c) eqn:Ef; [discriminate E|].
  destruct (peek_kind c) as [k| |]; cbn [bind] in E; try discriminate E.
  assert (P : (let* (p, c) := decode_primitive c in Ok (VPrim p, c)) = Ok (v, c') -> cu_offset c + nlen (format v) <= cu_offset c').
  { destruct (decode_primitive c) as [[p c1]| |] eqn:D; cbn [bind]; intros E'; try discriminate E'. injection E' as <- <-.
    exact (decode_prim_min _ _ _ B D). }
  destruct k; auto. unfold decode_array in E. rewrite Ef in E. destruct (cu_read_byte c) as [[b c0]| |] eqn:R; cbn [bind] in E; try discriminate E.
  destruct (pick b _) as [n| |] eqn:R2 in E; cbn [bind] in E; try discriminate E.
  destruct (read_byte_any _ _ _ B R) as [A _]. destruct (advances_fits _ _ A B) as [B1 _].
  destruct (decode_elements (N.to_nat n) (vec_with_capacity b) c0) as [[vs c2]| |] eqn:D; cbn [bind] in E; try discriminate E.
  destruct (decode_elements_min _ _ _ _ _ _ _ B1 (holds_new b) D) as (l' & H & M). cbn [app] in H.
  rewrite (holds_slice vs b _ H) in E. injection E as <- <-. apply read_byte_len in R. cbn [format]. rewrite nlen_cons. lia.
Qed.

(* ------------------------------------------------------------------------- *)
(** ** Buffers that were cut *)
Definition widen (more : bytes) (c : cursor) : cursor := mkCursor (cu_bytes c ++ more) (cu_offset c).
(** Reading from a cut buffer does what reading from the whole one does, or lacks bytes. *)
Definition agrees {A} (more : bytes) (d d' : dec (A * cursor)) : Prop :=
  match d with
  | Ok (x, c) => d' = Ok (x, widen more c) /\ cu_offset c <= nlen (cu_bytes c)
  | Err e => e = NotEnoughBytes
  | Panic => d' = Panic
  end.
Lemma agrees_bind {A B} more (d d' : dec (A * cursor)) (f : A * cursor -> dec (B * cursor)) :
  agrees more d d' -> (forall x c, cu_offset c <= nlen (cu_bytes c) -> agrees more (f (x, c)) (f (x, widen more c))) -> agrees more (bind d f) (bind d' f).
Proof. intros H F. destruct d as [[x c]|e|]; cbn [agrees] in H; cbn [bind]; [destruct H as [H L]; rewrite H; exact (F x c L)|exact H|now rewrite H]. Qed.
Lemma agrees_plain {A B} more (d : dec A) (f f' : A -> dec (B * cursor)) :
  (forall e, d <> Err e) -> (forall x, agrees more (f x) (f' x)) -> agrees more (bind d f) (bind d f').
Proof. intros N F. destruct d as [x|e|]; [apply F|exfalso; exact (N e eq_refl)|reflexivity]. Qed.
Lemma peek_cut more c : cu_peek c = Err NotEnoughBytes \/ exists b, cu_peek c = Ok b /\ cu_peek (widen more c) = Ok b.
Proof.
  unfold cu_peek, is_eof, widen. cbn [cu_bytes cu_offset]. destruct (N.leb_spec (nlen (cu_bytes c)) (cu_offset c)); [now left|right].
  destruct (nth_error (cu_bytes c) (N.to_nat (cu_offset c))) as [b|] eqn:E; [|apply nth_error_None in E; unfold nlen in *; lia].
  exists b. split; [reflexivity|]. rewrite nlen_app. destruct (N.leb_spec (nlen (cu_bytes c) + nlen more) (cu_offset c)); [lia|].
  rewrite nth_error_app1, E; [reflexivity|]. unfold nlen in *. lia.
Qed.
Lemma read_byte_cut more c : agrees more (cu_read_byte c) (cu_read_byte (widen more c)).
Proof.
  unfold cu_read_byte. destruct (peek_cut more c) as [-> |(b & E & E')]; [reflexivity|]. rewrite E, E'. cbn [bind agrees]. split; [reflexivity|].
  unfold cu_peek, is_eof in E. cbn [cu_bytes cu_offset]. destruct (N.leb_spec (nlen (cu_bytes c)) (cu_offset c)); [discriminate E|lia].
Qed.
Lemma read_bytes_cut more c n : agrees more (cu_read_bytes c n) (cu_read_bytes (widen more c) n).
Proof.
  unfold cu_read_bytes, widen. cbn [cu_bytes cu_offset]. destruct (N.leb_spec (cu_offset c + n) (nlen (cu_bytes c))) as [L|]; [|reflexivity].
  cbn [agrees]. cbn [cu_bytes cu_offset]. split; [|exact L]. rewrite nlen_app. destruct (N.leb_spec (cu_offset c + n) (nlen (cu_bytes c) + nlen more)); [|lia].
  unfold widen. cbn [cu_bytes cu_offset]. rewrite skipn_app, firstn_app, skipn_length. unfold nlen in L.
  replace (N.to_nat n - (length (cu_bytes c) - N.to_nat (cu_offset c)))%nat with 0%nat by lia. cbn [firstn]. now rewrite app_nil_r.
Qed.
Lemma read_num_cut more c n : agrees more (read_num c n) (read_num (widen more c) n).
Proof. unfold read_num. destruct (_ && _); [|reflexivity]. apply agrees_bind; [apply read_bytes_cut|]. intros x c' L. now split. Qed.
Lemma pick_answers b l e : pick b l <> Err e.
Proof. induction l as [|[ms n] l IH]; [discriminate|]. cbn [pick]. destruct (one_of b ms); [discriminate|exact IH]. Qed.
Lemma kind_answers b e : kind_of b <> Err e.
Proof. unfold kind_of. repeat match goal with |- context [if ?x then _ else _] => destruct x end; discriminate. Qed.
Lemma decode_int_cut more t c : agrees more (decode_int t c) (decode_int t (widen more c)).
Proof.
  unfold decode_int. apply agrees_bind; [|now split].
  destruct t; unfold decode_i8, decode_i16, decode_i32, decode_i64; (apply agrees_bind; [apply read_byte_cut|]; intros b c1 L1);
    try (destruct (one_of b _); [|now split]; apply agrees_bind; [apply read_num_cut|now split]);
    (apply agrees_plain; [intros e; apply pick_answers|]; intros n; apply agrees_bind; [apply read_num_cut|now split]).
Qed.
Lemma primitive_cut more c : agrees more (decode_primitive c) (decode_primitive (widen more c)).
Proof.
  unfold decode_primitive, peek_kind. destruct (peek_cut more c) as [E|(b & E & E')]; [rewrite E; reflexivity|]. rewrite E, E'. cbn [bind].
  apply agrees_plain; [intros e; apply kind_answers|]. intros k. destruct k; try reflexivity.
  - apply agrees_bind; [apply read_byte_cut|]. intros x c1 L1. destruct (_ =? _); [now split|reflexivity].
  - apply agrees_bind; [apply read_byte_cut|]. intros x c1 L1. destruct (_ =? _); [now split|reflexivity].
  - apply agrees_bind; [apply read_byte_cut|]. intros x c1 L1. destruct (_ =? _); [now split|]. destruct (_ =? _); [now split|reflexivity].
  - apply agrees_bind; [apply read_byte_cut|]. intros x c1 L1. destruct (_ =? _); [|reflexivity]. apply agrees_bind; [apply read_bytes_cut|now split].
  - unfold decode_amount. apply agrees_bind; [apply read_byte_cut|]. intros x c1 L1. apply agrees_plain; [intros e; apply pick_answers|]. intros n.
    apply agrees_bind; [apply read_num_cut|now split].
  - apply agrees_bind; [apply decode_int_cut|now split].
Qed.
Lemma elements_cut more n : forall vs c, cu_offset c <= nlen (cu_bytes c) -> agrees more (decode_elements n vs c) (decode_elements n vs (widen more c)).
Proof.
  induction n as [|n IH]; intros vs c L; cbn [decode_elements]; [now split|]. apply agrees_bind; [apply primitive_cut|]. intros p c1 L1.
  destruct (vec_push vs (VPrim p)); [apply IH; exact L1|reflexivity].
Qed.
Lemma value_cut more c : is_eof c = false -> agrees more (decode_value c) (decode_value (widen more c)).
Proof.
  intros Ne. unfold decode_value. assert (Ne' : is_eof (widen more c) = false).
  { unfold is_eof, widen in *. cbn [cu_bytes cu_offset]. rewrite nlen_app. lia. }
  rewrite Ne, Ne'. unfold peek_kind. destruct (peek_cut more c) as [E|(b & E & E')]; [rewrite E; reflexivity|]. rewrite E, E'. cbn [bind].
  apply agrees_plain; [intros e; apply kind_answers|]. intros k.
  assert (P : agrees more (let* (p, c0) := decode_primitive c in Ok (VPrim p, c0)) (let* (p, c0) := decode_primitive (widen more c) in Ok (VPrim p, c0)))
    by (apply agrees_bind; [apply primitive_cut|now split]).
  destruct k; try exact P. apply agrees_plain; [intros e; apply kind_answers|]. intros k. destruct k; try reflexivity.
  unfold decode_array. rewrite Ne, Ne'. apply agrees_bind; [apply read_byte_cut|]. intros x c1 L1. apply agrees_plain; [intros e; apply pick_answers|]. intros n.
  apply agrees_bind; [apply elements_cut; exact L1|]. intros vs c2 L2. destruct (vec_as_slice vs); [now split|reflexivity].
Qed.
Lemma truncated_prim p pre cut rest : prim_ok p -> prim_format p = cut ++ rest -> rest <> [] ->
  decode_primitive (at_ pre cut) = Err NotEnoughBytes.
Proof.
  intros O E R. pose proof (decode_prim_ok p pre [] O) as D. rewrite app_nil_r in D. pose proof (primitive_cut rest (at_ pre cut)) as A.
  assert (W : widen rest (at_ pre cut) = at_ pre (prim_format p)) by (unfold widen, at_; cbn [cu_bytes cu_offset]; now rewrite E, app_assoc).
  rewrite W, D in A. destruct (decode_primitive (at_ pre cut)) as [[x c]|e|] eqn:Dc; cbn [agrees] in A; [|now rewrite A|discriminate A].
  exfalso. destruct A as [A L]. injection A as Ev Eb Eo. rewrite E, !nlen_app in Eo.
  assert (B : cu_bytes c = pre ++ cut).
  { rewrite E, app_nil_r, (app_assoc pre) in Eb. symmetry. exact (app_inv_tail _ _ _ Eb). }
  rewrite B, nlen_app in L. destruct rest as [|r rest]; [congruence|]. rewrite (nlen_cons r) in Eo. lia.
Qed.
Lemma truncated_elements ps : forall vs cap l pre cut rest, Forall prim_ok ps -> holds vs cap l -> nlen l + nlen ps <= cap + 1 ->
  flat_map prim_format ps = cut ++ rest -> rest <> [] -> decode_elements (length ps) vs (at_ pre cut) = Err NotEnoughBytes.
Proof.
  induction ps as [|p ps IH]; intros vs cap l pre cut rest F H L E R.
  - destruct cut; [|discriminate E]. cbn in E. congruence.
  - apply Forall_cons_iff in F as [Op F]. cbn [length decode_elements flat_map] in *. apply app_eq_app in E. destruct E as (m & [[Ev Er]|[Ec Er]]).
    + destruct m as [|x m]; [|now rewrite (truncated_prim p pre cut (x :: m) Op Ev ltac:(discriminate))].
      rewrite app_nil_r in Ev. cbn [app] in Er. subst cut rest. pose proof (decode_prim_ok p pre [] Op) as D. rewrite app_nil_r in D. rewrite D. cbn [bind].
      destruct ps as [|q ps]; [cbn in R; congruence|]. rewrite !nlen_cons in L. destruct (holds_push vs cap l (VPrim p) H ltac:(lia)) as (v1 & -> & H1).
      apply (IH v1 cap (l ++ [VPrim p]) _ [] (flat_map prim_format (q :: ps))); auto. rewrite nlen_app, !nlen_cons. change (nlen (@nil value)) with 0. lia.
    + subst cut. rewrite decode_prim_ok by exact Op. cbn [bind].
      destruct ps as [|q ps]; [cbn in Er; symmetry in Er; apply app_eq_nil in Er; destruct Er; congruence|]. rewrite !nlen_cons in L.
      destruct (holds_push vs cap l (VPrim p) H ltac:(lia)) as (v1 & -> & H1).
      apply (IH v1 cap (l ++ [VPrim p]) _ m rest); auto. rewrite nlen_app, !nlen_cons. change (nlen (@nil value)) with 0. lia.
Qed.
(** Of an array of eight, the eighth element is missing or incomplete: the vector of seven does not overflow. *)
Lemma truncated_eight v pre cut rest : flat v -> array_of_eight v -> format v = cut ++ rest -> rest <> [] ->
  decode_value (at_ pre cut) = Err (match cut with [] => MissingTypeKind | _ => NotEnoughBytes end).
Proof.
  intros Fl Ne E R. destruct v as [p|vs]; [contradiction Ne|]. destruct Fl as [L F]. destruct (prims_of vs F) as (ps & -> & O). unfold array_of_eight in Ne.
  destruct cut as [|b cut]; [unfold decode_value; rewrite at_eof; reflexivity|].
  cbn [format app] in E. rewrite flat_map_prims, Ne in E. injection E as <- E. change (array_mark 8) with 7.
  assert (P : peek_kind (at_ pre (7 :: cut)) = Ok KArray).
  { unfold peek_kind. rewrite at_peek. cbn [bind]. change 7 with (array_mark 8). rewrite <- Ne. apply kind_array. exact L. }
  unfold decode_value. rewrite P. cbn [bind]. rewrite at_eof. unfold decode_array. rewrite at_eof, at_read_byte. cbn [bind].
  change (pick 7 [([L_ARR_0], 0); ([L_ARR_1], 1); ([L_ARR_2], 2); ([L_ARR_3], 3); ([L_ARR_4], 4); ([L_ARR_5], 5); ([L_ARR_6], 6); ([L_ARR_7], 7); ([L_ARR_8], 8); ([L_ARR_9], 9); ([L_ARR_10], 10)]) with (@Ok decode_error N 8).
  cbn [bind]. unfold nlen in Ne. rewrite map_length in Ne. replace (N.to_nat 8) with (length ps) by lia.
  rewrite (truncated_elements ps (vec_with_capacity 7) 7 [] _ cut rest O (holds_new 7)); [reflexivity| |exact E|exact R]. change (nlen (@nil value)) with 0. unfold nlen. lia.
Qed.
Lemma truncated_value v pre cut rest : flat v -> format v = cut ++ rest -> rest <> [] ->
  decode_value (mkCursor (pre ++ cut) (nlen pre)) = Err (match cut with [] => MissingTypeKind | _ => NotEnoughBytes end).
Proof.
  intros F E R. destruct (eight_dec v) as [Y8|N8]; [now apply (truncated_eight v pre cut rest)|]. pose proof (decode_value_ok v pre [] F N8) as D. rewrite app_nil_r in D.
  change (mkCursor (pre ++ cut) (nlen pre)) with (at_ pre cut). destruct cut as [|b cut]; [unfold decode_value; rewrite at_eof; reflexivity|].
  pose proof (value_cut rest (at_ pre (b :: cut))) as A. rewrite at_eof in A. specialize (A eq_refl).
  assert (W : widen rest (at_ pre (b :: cut)) = at_ pre (format v)) by (unfold widen, at_; cbn [cu_bytes cu_offset]; now rewrite E, app_assoc).
  rewrite W, D in A. destruct (decode_value (at_ pre (b :: cut))) as [[x c]|e|] eqn:Dc; cbn [agrees] in A; [|now rewrite A|discriminate A].
  exfalso. destruct A as [A L]. injection A as Ev Eb Eo. rewrite E, !nlen_app in Eo.
  assert (B : cu_bytes c = pre ++ b :: cut).
  { rewrite E, app_nil_r, (app_assoc pre) in Eb. symmetry. exact (app_inv_tail _ _ _ Eb). }
  rewrite B, nlen_app in L. destruct rest as [|r rest]; [congruence|]. rewrite (nlen_cons r) in Eo. lia.
Qed.
Lemma truncated_values vs : forall pre cut rest, Forall flat vs ->
  flat_map format vs = cut ++ rest -> rest <> [] -> next_values (length vs) (at_ pre cut) = None.
Proof.
  induction vs as [|v vs IH]; intros pre cut rest F E R.
  - destruct cut; [|discriminate E]. cbn in E. congruence.
  - apply Forall_cons_iff in F. destruct F as [Fv F].
    cbn [length next_values flat_map] in *. destruct (eight_dec v) as [Yv|Nv].
    { apply app_eq_app in E. destruct E as (l & [[Ev Er]|[Ec Er]]).
      - destruct l as [|x l].
        + rewrite app_nil_r in Ev. subst cut. pose proof (next_eight v pre [] Fv Yv) as X. rewrite app_nil_r in X. now rewrite X.
        + unfold calldata_next. destruct cut as [|b cut]; [rewrite at_eof; reflexivity|]. rewrite at_eof.
          pose proof (truncated_value v pre (b :: cut) (x :: l) Fv Ev ltac:(discriminate)) as D. fold (at_ pre (b :: cut)) in D. now rewrite D.
      - subst cut. now rewrite (next_eight v pre l Fv Yv). }
    apply app_eq_app in E. destruct E as (l & [[Ev Er]|[Ec Er]]).
    + destruct l as [|x l].
      * rewrite app_nil_r in Ev. subst cut. cbn in Er. subst rest. destruct vs as [|v' vs].
        { cbn in R. congruence. }
        pose proof (next_ok v pre [] Fv Nv) as X. rewrite app_nil_r in X. rewrite X. cbn [obind].
        rewrite (IH (pre ++ format v) [] (flat_map format (v' :: vs))); [reflexivity|assumption..|reflexivity|exact R].
      * unfold calldata_next. destruct cut as [|b cut]; [rewrite at_eof; reflexivity|]. rewrite at_eof.
        pose proof (truncated_value v pre (b :: cut) (x :: l) Fv Ev ltac:(discriminate)) as D. fold (at_ pre (b :: cut)) in D. now rewrite D.
    + subst cut. rewrite (next_ok v pre l Fv Nv). cbn [obind]. now rewrite (IH (pre ++ format v) l rest F Er R).
Qed.
