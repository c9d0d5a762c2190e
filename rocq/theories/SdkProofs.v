(** Lemmas about the SDK model. *)
From Coq Require Import String List NArith ZArith Arith Bool Lia ZifyBool ZifyNat ZifyN.
From Verif Require Import Base Text LayoutModel LayoutSpec LayoutProofs SdkModel SdkSpec.
Import ListNotations.
Open Scope list_scope.
Open Scope N_scope.

(* ------------------------------------------------------------------------- *)
(** * The vector *)

(** [v] has capacity [cap] and holds [l]. *)
Definition holds {A} (v : fvec A) (cap : N) (l : list A) : Prop :=
  fv_cap v = cap /\ fv_len v = nlen l /\ nlen l <= cap /\
  exists rest, fv_mem v = map Some l ++ rest /\ nlen l + nlen rest = cap.

Lemma holds_new {A} cap : holds (vec_with_capacity cap : fvec A) cap [].
Proof.
  unfold holds, vec_with_capacity, nlen. cbn [fv_cap fv_len fv_mem List.length]. do 3 (split; [reflexivity || lia|]).
  eexists. split; [reflexivity|]. rewrite repeat_length. lia.
Qed.
Lemma holds_raw {A} (l : list A) : holds (vec_from_raw_parts l) (nlen l) l.
Proof.
  unfold holds, vec_from_raw_parts. cbn. do 3 (split; [reflexivity || lia|]).
  exists []. split; [now rewrite app_nil_r|]. change (nlen (@nil (option A))) with 0. lia.
Qed.
Lemma cell_write_at {A} (l : list (option A)) c r x : cell_write (l ++ c :: r) (List.length l) x = Some (l ++ Some x :: r).
Proof. induction l as [|a l IH]; [reflexivity|]. cbn. now rewrite IH. Qed.
Lemma nth_map_some {A} (l : list A) r i : (i < List.length l)%nat ->
  nth_error (map Some l ++ r) i = option_map Some (nth_error l i).
Proof.
  intros L. rewrite nth_error_app1 by now rewrite map_length. apply nth_error_map.
Qed.
Lemma holds_read {A} (v : fvec A) cap l i : holds v cap l -> i < nlen l -> cell_read (fv_mem v) (N.to_nat i) = nth_error l (N.to_nat i).
Proof.
  intros (_ & _ & _ & r & M & _) L. unfold cell_read. rewrite M, nth_map_some by (unfold nlen in L; lia).
  destruct (nth_error l (N.to_nat i)); reflexivity.
Qed.

Lemma holds_push {A} (v : fvec A) cap l x : holds v cap l -> nlen l < cap ->
  exists v', vec_push v x = Some v' /\ holds v' cap (l ++ [x]).
Proof.
  intros (C & Ln & Le & r & M & R) L. unfold vec_push, ensure. rewrite C, Ln.
  replace (nlen l <? cap) with true by lia. cbn [obind].
  destruct r as [|c r]; [change (nlen (@nil (option A))) with 0 in R; lia|].
  rewrite M. replace (N.to_nat (nlen l)) with (List.length (map (@Some A) l)) by (rewrite map_length; unfold nlen; lia).
  rewrite cell_write_at. cbn [obind]. eexists. split; [reflexivity|].
  unfold holds. cbn. rewrite nlen_cons in R. rewrite nlen_app. change (nlen [x]) with 1.
  do 3 (split; [lia|]). exists r. split; [rewrite map_app, <- app_assoc; reflexivity|lia].
Qed.
Lemma holds_push_full {A} (v : fvec A) cap l x : holds v cap l -> cap <= nlen l -> vec_push v x = None.
Proof. intros (C & Ln & _) L. unfold vec_push, ensure. rewrite C, Ln. now replace (nlen l <? cap) with false by lia. Qed.
Lemma holds_slice {A} (v : fvec A) cap l : holds v cap l -> vec_as_slice v = Some l.
Proof.
  intros (_ & Ln & _ & r & M & _). unfold vec_as_slice. rewrite Ln, M. unfold nlen. rewrite Nat2N.id. clear.
  induction l as [|a l IH]; [destruct r; reflexivity|]. cbn. now rewrite IH.
Qed.
Lemma holds_pop {A} (v : fvec A) cap l x : holds v cap (l ++ [x]) ->
  exists v', vec_pop v = Some (x, v') /\ holds v' cap l.
Proof.
  intros H. pose proof H as (C & Ln & Le & r & M & R). unfold vec_pop, vec_is_empty, ensure, vec_take, ensure. rewrite Ln.
  rewrite nlen_app in *. change (nlen [x]) with 1 in *. replace (nlen l + 1 =? 0) with false by lia. cbn [negb obind].
  replace (nlen l + 1 - 1) with (nlen l) by lia. replace (nlen l <? nlen l + 1) with true by lia. cbn [obind].
  rewrite (holds_read v cap (l ++ [x]) (nlen l) H) by (rewrite nlen_app; change (nlen [x]) with 1; lia).
  unfold nlen. rewrite Nat2N.id, nth_error_app2, Nat.sub_diag by auto. cbn [nth_error obind].
  eexists. split; [reflexivity|]. unfold holds. cbn. do 3 (split; [lia || (unfold nlen; lia)|]).
  exists (Some x :: r). split; [rewrite M, map_app, <- app_assoc; reflexivity|]. rewrite nlen_cons. lia.
Qed.
Lemma holds_pop_empty {A} (v : fvec A) cap : holds v cap [] -> vec_pop v = None.
Proof. intros (_ & Ln & _). unfold vec_pop, vec_is_empty. now rewrite Ln. Qed.
Lemma holds_clear {A} (v : fvec A) cap l : holds v cap l -> holds (vec_clear v) cap [].
Proof.
  intros (C & Ln & Le & r & M & R). unfold holds, vec_clear. cbn. rewrite C.
  change (nlen (@nil A)) with 0. do 3 (split; [lia|]).
  exists (fv_mem v). split; auto. rewrite M, nlen_app. unfold nlen at 1. rewrite map_length. unfold nlen in *. lia.
Qed.

Lemma nexts_items {A} (v : fvec A) cap l (next : N -> option (option A * N)) : holds v cap l ->
  (forall pos, next pos = if fv_len v <=? pos then Some (None, pos)
     else let? x := (let? _ := ensure (pos <? fv_len v) in cell_read (fv_mem v) (N.to_nat pos)) in Some (Some x, pos + 1)) ->
  forall n k, nexts next n (N.of_nat k) = Some (map (nth_error l) (seq k n)) \/
    (List.length l <= k)%nat.
Proof.
  intros H Nx. induction n as [|n IH]; intros k; [left; reflexivity|].
  destruct (Nat.le_gt_cases (List.length l) k) as [|L]; [now right|left].
  cbn [nexts]. rewrite Nx. pose proof H as (_ & Ln & _).
  replace (fv_len v <=? N.of_nat k) with false by (rewrite Ln; unfold nlen; lia).
  unfold ensure. replace (N.of_nat k <? fv_len v) with true by (rewrite Ln; unfold nlen; lia). cbn [obind].
  rewrite (holds_read v cap l (N.of_nat k) H) by (unfold nlen; lia). rewrite Nat2N.id.
  destruct (nth_error l k) as [x|] eqn:E; [|apply nth_error_None in E; lia]. cbn [obind].
  assert (T : nexts next n (N.of_nat k + 1) = Some (map (nth_error l) (seq (S k) n))).
  { replace (N.of_nat k + 1) with (N.of_nat (S k)) by lia.
    destruct (IH (S k)) as [->|E']; [reflexivity|].
    assert (k = (List.length l - 1)%nat) by lia. clear IH E L.
    assert (G : forall n k, (List.length l <= k)%nat -> nexts next n (N.of_nat k) = Some (map (nth_error l) (seq k n))
                /\ forall j, (List.length l <= j)%nat -> nexts next n (N.of_nat j) = Some (map (fun _ => None) (seq k n))).
    { clear - Nx Ln. induction n as [|n IH]; intros k L; [split; reflexivity|].
      assert (J : forall j, (List.length l <= j)%nat -> nexts next (S n) (N.of_nat j) = Some (map (fun _ => None) (seq k (S n)))).
      { intros j Lj. cbn [nexts]. rewrite Nx. replace (fv_len v <=? N.of_nat j) with true by (rewrite Ln; unfold nlen; lia).
        cbn [obind]. destruct (IH (S k)) as [_ IH2]; [lia|]. rewrite (IH2 j Lj). reflexivity. }
      split; [|exact J]. rewrite (J k L). f_equal. apply map_ext_in. intros i I. apply in_seq in I.
      symmetry. apply nth_error_None. lia. }
    exact (proj1 (G n (S k) E')). }
  rewrite T. cbn [obind seq map]. rewrite E. reflexivity.
Qed.
Lemma nexts_from_start {A} (v : fvec A) cap l (next : N -> option (option A * N)) : holds v cap l ->
  (forall pos, next pos = if fv_len v <=? pos then Some (None, pos)
     else let? x := (let? _ := ensure (pos <? fv_len v) in cell_read (fv_mem v) (N.to_nat pos)) in Some (Some x, pos + 1)) ->
  forall n, nexts next n 0 = Some (map (nth_error l) (seq 0 n)).
Proof.
  intros H Nx n. destruct l as [|a l].
  - assert (G : forall n k, nexts next n 0 = Some (map (nth_error []) (seq k n))).
    { clear n. pose proof H as (_ & Ln & _). change (nlen (@nil A)) with 0 in Ln.
      induction n as [|n IH]; intros k; [reflexivity|]. cbn [nexts]. rewrite Nx, Ln. cbn [N.leb N.compare obind].
      rewrite (IH (S k)). cbn [obind seq map]. destruct k; reflexivity. }
    apply G.
  - destruct (nexts_items v cap (a :: l) next H Nx n 0) as [E|E]; [exact E|cbn in E; lia].
Qed.

Lemma vec_stack {A} (v : fvec A) cap l o : holds v cap l ->
  match stack_apply cap l o, vec_apply v o with
  | Some (a, l'), Some (a', v') => a = a' /\ holds v' cap l'
  | None, None => True
  | _, _ => False
  end.
Proof.
  intros H. destruct o as [x| | | | |n|n]; cbn [stack_apply vec_apply].
  - destruct (N.ltb_spec (nlen l) cap) as [L|L].
    + destruct (holds_push v cap l x H L) as (v' & -> & H'). cbn. auto.
    + rewrite (holds_push_full v cap l x H L). exact Logic.I.
  - destruct (rev l) as [|x r] eqn:R.
    + assert (l = []) by (rewrite <- (rev_involutive l), R; reflexivity). subst. now rewrite (holds_pop_empty v cap H).
    + assert (l = rev r ++ [x]) by (rewrite <- (rev_involutive l), R; reflexivity). subst l.
      destruct (holds_pop v cap (rev r) x H) as (v' & -> & H'). cbn. auto.
  - split; [auto|]. eapply holds_clear; eauto.
  - split; auto. destruct H as (_ & -> & _). reflexivity.
  - rewrite (holds_slice v cap l H). cbn. auto.
  - rewrite (nexts_from_start v cap l (iter_next v) H) by reflexivity. cbn. auto.
  - rewrite (nexts_from_start v cap l (into_iter_next v) H) by reflexivity. cbn. auto.
Qed.
Lemma answers_stack {A} cap os : forall (v : fvec A) l, holds v cap l ->
  answers vec_apply v os = answers (stack_apply cap) l os.
Proof.
  induction os as [|o os IH]; intros v l H; [reflexivity|]. cbn [answers]. pose proof (vec_stack v cap l o H) as V.
  destruct (stack_apply cap l o) as [[a l']|], (vec_apply v o) as [[a' v']|]; try contradiction; auto.
  destruct V as [-> H']. now rewrite (IH v' l' H').
Qed.

Lemma holds_pushes {A} (xs : list A) : forall v cap l, holds v cap l -> nlen l + nlen xs <= cap ->
  exists v', vec_pushes v xs = Some v' /\ holds v' cap (l ++ xs).
Proof.
  induction xs as [|x xs IH]; intros v cap l H L.
  - exists v. rewrite app_nil_r. auto.
  - rewrite nlen_cons in L. destruct (holds_push v cap l x H) as (v1 & E & H1); [lia|]. cbn [vec_pushes]. rewrite E. cbn [obind].
    destruct (IH v1 cap (l ++ [x]) H1) as (v2 & E2 & H2); [rewrite nlen_app; change (nlen [x]) with 1; lia|].
    exists v2. rewrite <- app_assoc in H2. auto.
Qed.
Lemma pushes_full {A} (xs : list A) : forall v cap l, holds v cap l -> cap < nlen l + nlen xs -> vec_pushes v xs = None.
Proof.
  induction xs as [|x xs IH]; intros v cap l H L.
  - change (nlen (@nil A)) with 0 in L. destruct H as (_ & _ & Le & _). lia.
  - rewrite nlen_cons in L. cbn [vec_pushes]. destruct (N.lt_ge_cases (nlen l) cap) as [Lt|Ge].
    + destruct (holds_push v cap l x H Lt) as (v1 & -> & H1). cbn [obind]. apply (IH v1 cap (l ++ [x]) H1).
      rewrite nlen_app. change (nlen [x]) with 1. lia.
    + now rewrite (holds_push_full v cap l x H Ge).
Qed.

(* ------------------------------------------------------------------------- *)
(** * Strings *)

Definition ascii (b : N) : Prop := b < 128.
Lemma ensure_ascii_ok b : ascii b -> ensure_ascii b = Some tt.
Proof.
  unfold ascii, ensure_ascii, ensure. intros L.
  assert (N.land b 128 = 0) as ->; [|reflexivity].
  apply N.bits_inj. intros i. rewrite N.land_spec, N.bits_0.
  destruct (N.eqb_spec i 7) as [->|Ne].
  - rewrite (N.bits_above_log2 b 7); [reflexivity|].
    destruct (N.eq_dec b 0) as [->|]; [reflexivity|]. apply N.log2_lt_pow2; lia.
  - change 128 with (2 ^ 7). rewrite N.pow2_bits_false by auto. apply andb_false_r.
Qed.
Lemma all_ascii_ok bs : Forall ascii bs -> all_ascii bs = Some tt.
Proof. induction 1 as [|b bs A _ IH]; [reflexivity|]. cbn [all_ascii]. rewrite (ensure_ascii_ok b A). exact IH. Qed.

Lemma new_short_shows bs safe : Forall ascii bs -> nlen bs <= 8 -> shows (new_short_inner bs safe) bs.
Proof.
  intros A L. unfold new_short_inner, ensure. replace (nlen bs <=? 8) with true by lia. cbn [obind].
  replace (if safe then all_ascii bs else Some tt) with (Some tt) by (destruct safe; [now rewrite all_ascii_ok|reflexivity]).
  cbn [obind]. eexists. split; [reflexivity|]. cbn [string_bytes].
  replace (nlen bs <=? nlen (bs ++ repeat 0 (8 - List.length bs)%nat)) with true by (rewrite nlen_app; lia).
  unfold nlen. rewrite Nat2N.id, firstn_app, Nat.sub_diag, firstn_all. cbn. now rewrite app_nil_r.
Qed.
Lemma new_unchecked_shows v cap t : holds v cap t -> Forall ascii t -> shows (new_unchecked v) t.
Proof.
  intros H A. unfold new_unchecked. pose proof H as (_ & Ln & _). destruct (N.leb_spec (fv_len v) 8).
  - rewrite (holds_slice v cap t H). cbn [obind]. apply new_short_shows; auto. lia.
  - eexists. split; [reflexivity|]. cbn [string_bytes]. eapply holds_slice; eauto.
Qed.
Lemma push_bytes_ok bs : forall v cap l, holds v cap l -> Forall ascii bs -> nlen l + nlen bs <= cap ->
  exists v', push_bytes v bs = Some v' /\ holds v' cap (l ++ bs).
Proof.
  induction bs as [|b bs IH]; intros v cap l H A L.
  - exists v. rewrite app_nil_r. auto.
  - apply Forall_cons_iff in A. destruct A as [Ab A]. rewrite nlen_cons in L. cbn [push_bytes]. rewrite ensure_ascii_ok by auto. cbn [obind].
    destruct (holds_push v cap l b H) as (v1 & E & H1); [lia|]. rewrite E. cbn [obind].
    destruct (IH v1 cap (l ++ [b]) H1) as (v2 & E2 & H2); [auto|rewrite nlen_app; change (nlen [b]) with 1; lia|].
    exists v2. rewrite <- app_assoc in H2. auto.
Qed.
Lemma push_bytes_full bs : forall v cap l, holds v cap l -> cap < nlen l + nlen bs -> push_bytes v bs = None.
Proof.
  induction bs as [|b bs IH]; intros v cap l H L.
  - change (nlen (@nil N)) with 0 in L. destruct H as (_ & _ & Le & _). lia.
  - rewrite nlen_cons in L. cbn [push_bytes]. destruct (ensure_ascii b); [|reflexivity]. cbn [obind].
    destruct (N.lt_ge_cases (nlen l) cap) as [Lt|Ge].
    + destruct (holds_push v cap l b H Lt) as (v1 & -> & H1). cbn [obind]. apply (IH v1 cap (l ++ [b]) H1).
      rewrite nlen_app. change (nlen [b]) with 1. lia.
    + now rewrite (holds_push_full v cap l b H Ge).
Qed.
Lemma push_str_ok v cap l s t : holds v cap l -> string_bytes s = Some t -> Forall ascii t -> nlen t < 256 ->
  nlen l + nlen t <= cap -> exists v', push_str v s = Some v' /\ holds v' cap (l ++ t).
Proof.
  intros H S A T L. unfold push_str, ensure. rewrite S. cbn [obind]. replace (nlen t <? 256) with true by lia. cbn [obind].
  apply push_bytes_ok; auto.
Qed.
Lemma push_str_full v cap l s t : holds v cap l -> string_bytes s = Some t -> cap < nlen l + nlen t -> push_str v s = None.
Proof.
  intros H S L. unfold push_str, ensure. rewrite S. cbn [obind]. destruct (nlen t <? 256); [|reflexivity]. cbn [obind].
  eapply push_bytes_full; eauto.
Qed.
(** Building and pushing at once. *)
Lemma push_shown v cap l so t : holds v cap l -> shows so t -> Forall ascii t -> nlen t < 256 ->
  nlen l + nlen t <= cap -> exists v', (let? s := so in push_str v s) = Some v' /\ holds v' cap (l ++ t).
Proof. intros H (s & -> & S) A T L. cbn [obind]. eapply push_str_ok; eauto. Qed.

(* ------------------------------------------------------------------------- *)
(** * Numbers *)

(** The digits, least significant first. *)
Fixpoint le_digits (fuel : nat) (n : N) : list N :=
  match fuel with
  | O => []
  | S f => n mod 10 :: (if n / 10 =? 0 then [] else le_digits f (n / 10))
  end.
Lemma le_digits_rev fuel : forall n, n < 10 ^ N.of_nat fuel -> rev (le_digits fuel n) = digits fuel n.
Proof.
  induction fuel as [|f IH]; intros n L; [reflexivity|].
  cbn [le_digits digits rev]. destruct (N.ltb_spec n 10) as [Lt|Ge].
  - rewrite (N.div_small n 10) by lia. rewrite (N.mod_small n 10) by lia. reflexivity.
  - replace (n / 10 =? 0) with false. { rewrite IH; [reflexivity|]. apply N.div_lt_upper_bound; [lia|]. rewrite Nat2N.inj_succ, N.pow_succ_r' in L. lia. }
    symmetry. apply N.eqb_neq. intros E. apply N.div_small_iff in E; lia.
Qed.
(** Enough fuel gives the same digits. *)
Lemma digits_fuel f : forall n g, n < 10 ^ N.of_nat f -> n < 10 ^ N.of_nat g -> (0 < f)%nat -> (0 < g)%nat -> digits f n = digits g n.
Proof.
  induction f as [|f IH]; intros n g L1 L2 Z1 Z2; [lia|]. destruct g as [|g]; [lia|]. cbn [digits].
  destruct (N.ltb_spec n 10) as [Lt|Ge]; [reflexivity|]. f_equal.
  rewrite Nat2N.inj_succ, N.pow_succ_r' in L1, L2.
  assert (n / 10 < 10 ^ N.of_nat f) by (apply N.div_lt_upper_bound; lia).
  assert (n / 10 < 10 ^ N.of_nat g) by (apply N.div_lt_upper_bound; lia).
  assert (0 < n / 10) by (apply N.div_str_pos; lia).
  apply IH; auto.
  - destruct f; [cbn in *; lia|lia].
  - destruct g; [cbn in *; lia|lia].
Qed.
Lemma decimal_digits n f : n < 10 ^ N.of_nat f -> (0 < f)%nat -> decimal n = map (fun d => 48 + d) (digits f n).
Proof.
  intros L F. unfold decimal. f_equal. apply digits_fuel; auto; [|lia].
  eapply N.lt_le_trans; [apply size_nat_gt|]. etransitivity; [apply (N.pow_le_mono_l 2 10); lia|].
  apply N.pow_le_mono_r; lia.
Qed.
Lemma digits_length f : forall n k, (0 < f)%nat -> (0 < k)%nat -> n < 10 ^ N.of_nat f ->
  (n < 10 ^ N.of_nat k <-> (List.length (digits f n) <= k)%nat).
Proof.
  induction f as [|f IH]; intros n k F K L; [lia|]. cbn [digits]. destruct (N.ltb_spec n 10) as [Lt|Ge].
  - cbn. split; [lia|]. intros _. destruct k; [lia|]. rewrite Nat2N.inj_succ, N.pow_succ_r'.
    assert (0 < 10 ^ N.of_nat k) by (apply N.neq_0_lt_0, N.pow_nonzero; lia). lia.
  - rewrite app_length. cbn. destruct k as [|k]; [lia|]. rewrite Nat2N.inj_succ, N.pow_succ_r' in *.
    assert (Q : 0 < n / 10) by (apply N.div_str_pos; lia).
    assert (n / 10 < 10 ^ N.of_nat f) by (apply N.div_lt_upper_bound; lia).
    assert (f <> 0)%nat by (intros ->; cbn in *; lia).
    destruct k as [|k].
    + split; [cbn; lia|]. intros X. exfalso.
      assert (0 < List.length (digits f (n / 10)))%nat; [|lia]. destruct f; [lia|]. cbn [digits].
      destruct (n / 10 <? 10); [cbn; lia|]. rewrite app_length. cbn. lia.
    + specialize (IH (n / 10) (S k)). assert (E : n < 10 * 10 ^ N.of_nat (S k) <-> n / 10 < 10 ^ N.of_nat (S k)).
      { split; intros X; [apply N.div_lt_upper_bound; lia|].
        pose proof (N.div_mod n 10 ltac:(lia)). pose proof (N.mod_lt n 10 ltac:(lia)). lia. }
      rewrite E, IH; lia.
Qed.

Lemma array_set_next ds : forall r d, r <> [] -> array_set (ds ++ r) (List.length ds) d = Some (ds ++ d :: tl r).
Proof.
  induction ds as [|x ds IH]; intros r d R; cbn.
  - destruct r; [contradiction|reflexivity].
  - now rewrite IH.
Qed.
Lemma num_loop_spec n : forall value ds rest used negative,
  (List.length ds + List.length rest = 20)%nat -> used = nlen ds -> (List.length ds + n = 21)%nat ->
  value < 10 ^ N.of_nat (List.length rest) -> rest <> [] ->
  exists digits, num_loop n value (ds ++ rest) used negative = concat_digits digits (nlen ds + nlen (le_digits (List.length rest) value)) negative
    /\ (List.length digits = 20)%nat /\ firstn (List.length ds + List.length (le_digits (List.length rest) value)) digits = ds ++ le_digits (List.length rest) value.
Proof.
  induction n as [|n IH]; intros value ds rest used negative Ln -> Ln' L R; [destruct rest; cbn in *; [contradiction|lia]|].
  cbn [num_loop next_digit]. replace (N.to_nat (nlen ds)) with (List.length ds) by (unfold nlen; lia).
  rewrite array_set_next by auto. cbn [obind]. destruct rest as [|r0 rest]; [contradiction|]. cbn [tl List.length le_digits].
  destruct (N.eqb_spec (value / 10) 0) as [Z|NZ].
  - exists (ds ++ value mod 10 :: rest). split; [f_equal; rewrite nlen_cons; unfold nlen; cbn; lia|].
    split; [rewrite app_length in *; cbn in *; lia|]. cbn [List.length].
    rewrite firstn_app. replace (List.length ds + 1 - List.length ds)%nat with 1%nat by lia.
    rewrite firstn_all2 by lia. reflexivity.
  - cbn [List.length] in *. rewrite Nat2N.inj_succ, N.pow_succ_r' in L.
    assert (L2 : value / 10 < 10 ^ N.of_nat (List.length rest)) by (apply N.div_lt_upper_bound; lia).
    assert (rest <> []) by (intros ->; cbn in L2; apply NZ; lia).
    destruct (IH (value / 10) (ds ++ [value mod 10]) rest (nlen ds + 1) negative) as (digits & E & Ld & F); auto.
    + rewrite app_length. cbn. lia.
    + rewrite nlen_app. reflexivity.
    + rewrite app_length. cbn. lia.
    + rewrite <- app_assoc in E, F. cbn [app] in E, F. exists digits. rewrite E. split; [|split; [auto|]].
      * f_equal. rewrite nlen_app, !nlen_cons. change (nlen (@nil N)) with 0. lia.
      * rewrite app_length in F. cbn [List.length] in F |- *.
        replace (List.length ds + S (List.length (le_digits (List.length rest) (value / 10))))%nat
          with (List.length ds + 1 + List.length (le_digits (List.length rest) (value / 10)))%nat by lia. exact F.
Qed.

Lemma rev_firstn_S {A} (l : list A) m x : nth_error l m = Some x -> rev (firstn (S m) l) = x :: rev (firstn m l).
Proof.
  revert l. induction m as [|m IH]; intros [|a l] E; try discriminate.
  - injection E as ->. reflexivity.
  - cbn [nth_error] in E. rewrite (firstn_cons (S m) a l), (firstn_cons m a l). cbn [rev]. rewrite (IH l E). reflexivity.
Qed.
Lemma dec_digit_shows d : d < 10 -> shows (dec_digit_string d) [48 + d].
Proof.
  intros L. unfold dec_digit_string, ensure. replace (d <? 10) with true by lia. cbn [obind]. unfold from_byte.
  rewrite (N.add_comm d 48). apply new_short_shows; [repeat constructor; unfold ascii; lia|]. cbn. lia.
Qed.
Lemma concat_loop_spec n : forall k digits used sb cap l, holds sb cap l -> k + N.of_nat n = 20 -> k <= used -> used <= 20 ->
  (List.length digits = 20)%nat -> Forall (fun d => d < 10) (firstn (N.to_nat used) digits) -> nlen l + (used - k) <= cap ->
  exists sb', concat_loop n k digits used sb = Some sb' /\
    holds sb' cap (l ++ map (fun d => 48 + d) (rev (firstn (N.to_nat (used - k)) digits))).
Proof.
  induction n as [|n IH]; intros k digits used sb cap l H K1 K2 K3 Ld F L.
  - assert (used = k) by lia. subst. exists sb. rewrite N.sub_diag. cbn. rewrite app_nil_r. auto.
  - cbn [concat_loop]. destruct (N.ltb_spec k used) as [Lt|Ge].
    + destruct (nth_error digits (N.to_nat (used - k - 1))) as [d|] eqn:E; [|apply nth_error_None in E; lia].
      cbn [obind].
      assert (D : d < 10).
      { rewrite Forall_forall in F. apply F. eapply nth_error_In with (n := N.to_nat (used - k - 1)).
        rewrite <- E. rewrite <- (firstn_skipn (N.to_nat used) digits) at 2. symmetry. apply nth_error_app1. rewrite firstn_length. lia. }
      destruct (dec_digit_shows d D) as (s & -> & Sb). cbn [obind].
      destruct (push_str_ok sb cap l s [48 + d] H Sb) as (sb1 & -> & H1);
        [repeat constructor; unfold ascii; lia|cbn; lia|change (nlen [48 + d]) with 1; lia|]. cbn [obind].
      destruct (IH (k + 1) digits used sb1 cap (l ++ [48 + d]) H1) as (sb2 & -> & H2); try lia; auto.
      { rewrite nlen_app. change (nlen [48 + d]) with 1. lia. }
      exists sb2. split; [reflexivity|]. rewrite <- app_assoc in H2. cbn [app] in H2.
      replace (N.to_nat (used - k)) with (S (N.to_nat (used - k - 1))) by lia.
      rewrite (rev_firstn_S digits (N.to_nat (used - k - 1)) d E). cbn [map].
      replace (N.to_nat (used - k - 1)) with (N.to_nat (used - (k + 1))) by lia. exact H2.
    + assert (used = k) by lia. subst. exists sb. rewrite N.sub_diag. cbn. rewrite app_nil_r. auto.
Qed.

Lemma decimal_ascii n : Forall (fun b => 48 <= b < 58) (decimal n).
Proof.
  pose proof (decimal_canonical n) as (_ & F & _). rewrite Forall_map in F. unfold decimal in *.
  rewrite Forall_map in *. rewrite Forall_forall in *. intros d D. specialize (F d D). cbv beta in *. lia.
Qed.
Lemma ascii_of P (bs : bytes) : Forall P bs -> (forall b, P b -> ascii b) -> Forall ascii bs.
Proof. intros F H. eapply Forall_impl; eauto. Qed.
Lemma decimal_is_ascii n : Forall ascii (decimal n).
Proof. apply (ascii_of _ _ (decimal_ascii n)). unfold ascii. lia. Qed.

Definition sign (negative : bool) : bytes := if negative then [45] else [].
Lemma num_string_shows n negative : n <= u64_max -> shows (num_as_string n negative) (sign negative ++ decimal n).
Proof.
  intros L. assert (L10 : n < 10 ^ N.of_nat 20) by (eapply N.le_lt_trans; [exact L|reflexivity]).
  unfold num_as_string. change (repeat 0 20) with ([] ++ repeat 0 20).
  destruct (num_loop_spec 21 n [] (repeat 0 20) 0 negative) as (digits & -> & Ld & F); auto; [discriminate|].
  rewrite repeat_length in *. cbn [List.length] in F. change (0 + ?a)%nat with a in F. cbn [app] in F.
  set (ds := le_digits 20 n) in *. change (nlen (@nil N)) with 0. rewrite N.add_0_l.
  assert (Rv : rev ds = Text.digits 20 n) by (apply le_digits_rev; exact L10).
  assert (D : decimal n = map (fun d => 48 + d) (rev ds)) by (rewrite Rv; apply decimal_digits; [exact L10|lia]).
  assert (Lds : nlen ds <= 20).
  { unfold nlen. rewrite <- rev_length, Rv. pose proof (proj1 (digits_length 20 n 20 ltac:(lia) ltac:(lia) L10) L10). lia. }
  assert (Fd : Forall (fun d => d < 10) ds).
  { pose proof (decimal_canonical n) as (_ & X & _). rewrite D, map_map in X. rewrite Forall_map in X.
    rewrite Forall_forall in *. intros d I. apply in_rev in I. specialize (X d I). cbv beta in X. lia. }
  unfold concat_digits.
  assert (P : exists sb, (if negative then let? s := from_byte 45 in push_str (vec_with_capacity 21) s else Some (vec_with_capacity 21)) = Some sb
             /\ holds sb 21 (sign negative)).
  { destruct negative; [|eexists; split; [reflexivity|apply holds_new]].
    destruct (push_shown (vec_with_capacity 21) 21 [] (from_byte 45) [45] (holds_new 21)) as (v & E & H).
    - apply new_short_shows; [repeat constructor; unfold ascii; lia|cbn; lia].
    - repeat constructor; unfold ascii; lia.
    - cbn. lia.
    - cbn. lia.
    - exists v. auto. }
  destruct P as (sb & -> & H). cbn [obind].
  assert (Sg : nlen (sign negative) <= 1) by (destruct negative; cbn; lia).
  assert (Nl : N.to_nat (nlen ds) = List.length ds) by (unfold nlen; lia).
  destruct (concat_loop_spec 20 0 digits (nlen ds) sb 21 (sign negative) H) as (sb' & -> & H'); auto; try lia.
  { rewrite Nl, F. exact Fd. }
  cbn [obind]. rewrite N.sub_0_r, Nl, F, <- D in H'. eapply new_unchecked_shows; [exact H'|].
  apply Forall_app. split; [destruct negative; repeat constructor; unfold ascii; lia|apply decimal_is_ascii].
Qed.

Lemma decimal_numeral n : numeral n (decimal n).
Proof.
  exists (map (fun c => c - 48) (decimal n)). split; [|split; [apply decimal_canonical|apply decimal_value]].
  rewrite map_map. pose proof (decimal_ascii n) as F. clear -F. induction F as [|b bs B _ IH]; [reflexivity|].
  cbn [map]. rewrite <- IH. f_equal. lia.
Qed.

(** A number has one numeral. *)
Lemma digits_value_cons ds : forall acc, fold_left (fun a d => a * 10 + d) ds acc = acc * 10 ^ nlen ds + digits_value ds.
Proof.
  induction ds as [|d ds IH]; intros acc.
  - unfold digits_value. cbn [fold_left]. change (nlen (@nil N)) with 0. rewrite N.pow_0_r. lia.
  - unfold digits_value. cbn [fold_left]. rewrite IH, (IH (0 * 10 + d)), nlen_cons, N.pow_add_r. change (10 ^ 1) with 10. nia.
Qed.
Lemma pow10_pos k : 0 < 10 ^ k.
Proof. apply N.neq_0_lt_0, N.pow_nonzero. lia. Qed.
Lemma digits_value_bound ds : Forall (fun d => d < 10) ds -> digits_value ds < 10 ^ nlen ds.
Proof.
  induction 1 as [|d ds D _ IH]; [reflexivity|]. unfold digits_value in *. cbn [fold_left]. rewrite digits_value_cons, nlen_cons, N.pow_add_r.
  change (10 ^ 1) with 10. unfold digits_value. pose proof (pow10_pos (nlen ds)). nia.
Qed.
Lemma same_length_value ds : forall es, List.length ds = List.length es -> Forall (fun d => d < 10) ds -> Forall (fun d => d < 10) es ->
  digits_value ds = digits_value es -> ds = es.
Proof.
  induction ds as [|d ds IH]; intros [|e es] L F1 F2 V; try discriminate; auto.
  injection L as L. inversion F1; inversion F2; subst. unfold digits_value in V. cbn [fold_left] in V.
  rewrite !digits_value_cons in V. unfold nlen in V. rewrite L in V. fold (nlen es) in V.
  pose proof (digits_value_bound ds ltac:(auto)) as B1. unfold nlen in B1. rewrite L in B1. fold (nlen es) in B1.
  pose proof (digits_value_bound es ltac:(auto)) as B2.
  assert (d = e) by nia. subst. f_equal. apply IH; auto. lia.
Qed.
Lemma canonical_low ds : canonical_numeral ds -> digits_value ds <> 0 \/ (1 < List.length ds)%nat -> 10 ^ (nlen ds - 1) <= digits_value ds.
Proof.
  intros (N0 & F & Z) C. destruct ds as [|d ds]; [contradiction|]. unfold digits_value in *. cbn [fold_left hd] in *.
  rewrite digits_value_cons in *. rewrite nlen_cons. replace (1 + nlen ds - 1) with (nlen ds) by lia.
  destruct (N.eq_dec d 0) as [->|]; [|pose proof (pow10_pos (nlen ds)); nia].
  specialize (Z eq_refl). injection Z as ->. cbn in *. lia.
Qed.
Lemma numeral_unique n a b : numeral n a -> numeral n b -> a = b.
Proof.
  intros (ds & -> & C1 & V1) (es & -> & C2 & V2). f_equal.
  assert (Q : forall ds es, canonical_numeral ds -> canonical_numeral es -> digits_value ds = digits_value es -> (List.length ds <= List.length es)%nat).
  { clear. intros ds es C1 C2 V. destruct (Nat.le_gt_cases (List.length ds) (List.length es)) as [|L]; auto. exfalso.
    assert (X : 10 ^ (nlen ds - 1) <= digits_value ds).
    { apply canonical_low; auto. right. destruct C2 as (N0 & _). destruct es; [contradiction|]. cbn in L. lia. }
    destruct C2 as (_ & F & _). pose proof (digits_value_bound es F) as B.
    assert (10 ^ nlen es <= 10 ^ (nlen ds - 1)) by (apply N.pow_le_mono_r; unfold nlen; lia). lia. }
  apply same_length_value; [|apply C1|apply C2|congruence].
  apply Nat.le_antisymm; apply Q; auto; congruence.
Qed.

Lemma decimal_length n k : 0 < k -> (n < 10 ^ k <-> nlen (decimal n) <= k).
Proof.
  intros K. pose proof (size_nat_gt n) as S.
  assert (S2 : n < 10 ^ N.of_nat (Datatypes.S (N.size_nat n))).
  { eapply N.lt_le_trans; [exact S|]. etransitivity; [apply (N.pow_le_mono_l 2 10); lia|]. apply N.pow_le_mono_r; lia. }
  unfold decimal, nlen. rewrite map_length.
  pose proof (digits_length (Datatypes.S (N.size_nat n)) n (N.to_nat k) ltac:(lia) ltac:(lia) S2) as D.
  rewrite N2Nat.id in D. rewrite D. lia.
Qed.

Lemma ascii_lit bs : forallb (fun b => b <? 128) bs = true -> Forall ascii bs.
Proof. intros H. rewrite forallb_forall in H. apply Forall_forall. intros b I. specialize (H b I). unfold ascii. lia. Qed.
Ltac lit := first [reflexivity | discriminate | rewrite ?nlen_app, ?nlen_cons, ?nlen_nil; lia | cbn; lia].
Lemma amount_shows n : n <= u64_max -> shows (amount_to_string n) (decimal n ++ txt " coins").
Proof.
  intros L. unfold amount_to_string. destruct (num_string_shows n false L) as (s & E & S). unfold unsigned_to_string. rewrite E. cbn [obind sign app] in *.
  assert (D : nlen (decimal n) <= 20) by (apply decimal_length; [lia|eapply N.le_lt_trans; [exact L|reflexivity]]).
  destruct (push_str_ok (vec_with_capacity 26) 26 [] s (decimal n) (holds_new 26) S (decimal_is_ascii n)) as (sb & -> & H); [lia|lit|].
  cbn [obind app] in *.
  unfold new_short. destruct (new_short_shows (txt " coins") true) as (u & -> & U); [apply ascii_lit; reflexivity|lit|]. cbn [obind].
  destruct (push_str_ok sb 26 _ u _ H U) as (sb2 & -> & H2); [apply ascii_lit; reflexivity|lit|change (nlen (txt " coins")) with 6; lia|].
  cbn [obind]. eapply new_unchecked_shows; [exact H2|]. apply Forall_app. split; [apply decimal_is_ascii|apply ascii_lit; reflexivity].
Qed.
Lemma layer_shows n : n < 10 ^ 18 -> shows (layer_to_string n) (txt "[Layer " ++ decimal n ++ txt "]").
Proof.
  intros L. unfold layer_to_string.
  destruct (num_string_shows n false) as (s & E & S); [unfold u64_max; lia|]. unfold unsigned_to_string. rewrite E. cbn [obind sign app] in *.
  assert (D : nlen (decimal n) <= 18) by (apply decimal_length; lia).
  destruct (new_short_shows (txt "[Layer ") true) as (u & Eu & U); [apply ascii_lit; reflexivity|lit|].
  unfold new_short. rewrite Eu. cbn [obind].
  destruct (push_str_ok (vec_with_capacity 26) 26 [] u _ (holds_new 26) U) as (sb & Esb & H); [apply ascii_lit; reflexivity|lit|lit|].
  change (20 + 6) with 26. rewrite Esb. cbn [obind app] in *.
  destruct (push_str_ok sb 26 _ s (decimal n) H S (decimal_is_ascii n)) as (sb2 & -> & H2); [lia|change (nlen (txt "[Layer ")) with 7; lia|].
  cbn [obind].
  destruct (new_short_shows [93] true) as (c & Ec & C); [repeat constructor; unfold ascii; lia|lit|]. unfold from_byte. rewrite Ec. cbn [obind].
  destruct (push_str_ok sb2 26 _ c _ H2 C) as (sb3 & -> & H3); [repeat constructor; unfold ascii; lia|lit|rewrite nlen_app; change (nlen (txt "[Layer ")) with 7; lit|].
  cbn [obind]. rewrite <- app_assoc in H3. eapply new_unchecked_shows; [exact H3|].
  apply Forall_app. split; [apply ascii_lit; reflexivity|]. apply Forall_app. split; [apply decimal_is_ascii|apply ascii_lit; reflexivity].
Qed.
Lemma layer_aborts n : n <= u64_max -> 10 ^ 18 <= n -> layer_to_string n = None.
Proof.
  intros L G. unfold layer_to_string.
  destruct (num_string_shows n false L) as (s & E & S). unfold unsigned_to_string. rewrite E. cbn [obind sign app] in *.
  assert (D : nlen (decimal n) <= 20) by (apply decimal_length; [lia|eapply N.le_lt_trans; [exact L|reflexivity]]).
  assert (D2 : 19 <= nlen (decimal n)).
  { destruct (N.le_gt_cases (nlen (decimal n)) 18) as [X|]; [|lia]. apply decimal_length in X; lia. }
  destruct (new_short_shows (txt "[Layer ") true) as (u & Eu & U); [apply ascii_lit; reflexivity|lit|].
  unfold new_short. rewrite Eu. cbn [obind].
  destruct (push_str_ok (vec_with_capacity 26) 26 [] u _ (holds_new 26) U) as (sb & Esb & H); [apply ascii_lit; reflexivity|lit|lit|].
  change (20 + 6) with 26. rewrite Esb. cbn [obind app] in *.
  destruct (N.eq_dec (nlen (decimal n)) 19) as [D19|].
  - destruct (push_str_ok sb 26 _ s (decimal n) H S (decimal_is_ascii n)) as (sb2 & -> & H2); [lia|change (nlen (txt "[Layer ")) with 7; lia|].
    cbn [obind].
    destruct (new_short_shows [93] true) as (c & Ec & C); [repeat constructor; unfold ascii; lia|lit|]. unfold from_byte. rewrite Ec. cbn [obind].
    rewrite (push_str_full sb2 26 _ c _ H2 C); [reflexivity|]. rewrite nlen_app, D19. cbn. lia.
  - rewrite (push_str_full sb 26 _ s _ H S); [reflexivity|]. change (nlen (txt "[Layer ")) with 7. lia.
Qed.

(** ** Addresses *)
Lemma hex_digit_shows d : d < 16 -> shows (hex_digit_string d) [hex_digit d].
Proof.
  intros L. unfold hex_digit_string, ensure, hex_digit. replace (d <? 16) with true by lia. cbn [obind].
  destruct (N.ltb_spec d 10); [now apply dec_digit_shows|]. replace (d - 10 + 65) with (55 + d) by lia.
  apply new_short_shows; [repeat constructor; unfold ascii; lia|lit].
Qed.
Lemma nibbles b : is_byte b -> N.shiftr (N.land b 240) 4 = b / 16 /\ N.land b 15 = b mod 16.
Proof.
  intros B. split.
  - rewrite N.shiftr_land. change (N.shiftr 240 4) with (N.ones 4). rewrite N.land_ones, N.shiftr_div_pow2.
    change (2 ^ 4) with 16. apply N.mod_small. unfold is_byte in B. apply N.div_lt_upper_bound; lia.
  - change 15 with (N.ones 4). now rewrite N.land_ones.
Qed.
Lemma hex_ascii d : d < 16 -> ascii (hex_digit d).
Proof. unfold ascii, hex_digit. destruct (d <? 10); lia. Qed.
Lemma push_hex_ok bs : forall sb cap l, holds sb cap l -> bytes_ok bs -> nlen l + 2 * nlen bs <= cap ->
  exists sb', push_hex sb bs = Some sb' /\ holds sb' cap (l ++ hex_upper bs).
Proof.
  induction bs as [|b bs IH]; intros sb cap l H B L.
  - exists sb. cbn. rewrite app_nil_r. auto.
  - apply bytes_ok_cons in B. destruct B as [B Bs]. rewrite nlen_cons in L. cbn [push_hex]. destruct (nibbles b B) as [-> ->].
    unfold is_byte in B.
    assert (D1 : b / 16 < 16) by (apply N.div_lt_upper_bound; lia). assert (D2 : b mod 16 < 16) by (apply N.mod_lt; lia).
    destruct (hex_digit_shows _ D1) as (s1 & -> & S1). cbn [obind].
    destruct (push_str_ok sb cap l s1 _ H S1) as (v1 & -> & H1); [repeat constructor; now apply hex_ascii|lit|change (nlen [hex_digit (b / 16)]) with 1; lia|].
    cbn [obind]. destruct (hex_digit_shows _ D2) as (s2 & -> & S2). cbn [obind].
    destruct (push_str_ok v1 cap _ s2 _ H1 S2) as (v2 & -> & H2); [repeat constructor; now apply hex_ascii|lit|rewrite nlen_app; change (nlen [hex_digit (b / 16)]) with 1; change (nlen [hex_digit (b mod 16)]) with 1; lia|].
    cbn [obind]. destruct (IH v2 cap _ H2 Bs) as (v3 & -> & H3); [rewrite !nlen_app; change (nlen [hex_digit (b / 16)]) with 1; change (nlen [hex_digit (b mod 16)]) with 1; lia|].
    exists v3. split; [reflexivity|]. unfold hex_upper. cbn [flat_map]. unfold hex_byte at 1.
    rewrite <- !app_assoc in H3. exact H3.
Qed.
Lemma hex_upper_ascii bs : bytes_ok bs -> Forall ascii (hex_upper bs).
Proof.
  induction 1 as [|b bs B _ IH]; [constructor|]. unfold is_byte in B. unfold hex_upper in *. cbn [flat_map hex_byte app].
  constructor; [apply hex_ascii, N.div_lt_upper_bound; lia|]. constructor; [apply hex_ascii, N.mod_lt; lia|exact IH].
Qed.
Lemma address_shows a : bytes_ok a -> List.length a = 20%nat -> shows (address_to_string a) (txt "0x" ++ hex_upper a).
Proof.
  intros B L. unfold address_to_string.
  destruct (new_short_shows (txt "0x") true) as (u & Eu & U); [apply ascii_lit; reflexivity|lit|].
  unfold new_short. rewrite Eu. cbn [obind]. change (2 + 20 * 2) with 42.
  destruct (push_str_ok (vec_with_capacity 42) 42 [] u _ (holds_new 42) U) as (sb & -> & H); [apply ascii_lit; reflexivity|lit|lit|].
  cbn [obind app] in *. destruct (push_hex_ok a sb 42 _ H B) as (v & -> & H2); [unfold nlen; rewrite L; lit|].
  cbn [obind]. eapply new_unchecked_shows; [exact H2|]. apply Forall_app. split; [apply ascii_lit; reflexivity|now apply hex_upper_ascii].
Qed.

(* ------------------------------------------------------------------------- *)
(** * Storage variables *)

(** The sizes the macro uses are those of the types. *)
Lemma field_byte_count_size t : field_byte_count t = type_size t.
Proof. destruct t; reflexivity. Qed.
Lemma storage_vars_at fs : forall id offset vs, storage_vars_from fs id offset = Some vs ->
  List.length vs = List.length fs /\
  forall i f, nth_error fs i = Some f ->
    nth_error vs i = Some (field_var f (id + count_cells (firstn i fs)) (offset + count_bytes (firstn i fs))).
Proof.
  induction fs as [|f fs IH]; intros id offset vs E.
  - injection E as <-. split; [reflexivity|]. intros [|i] f N; discriminate N.
  - cbn [storage_vars_from] in E.
    assert (X : exists vs', vs = field_var f id offset :: vs' /\
      storage_vars_from fs (id + field_cells f) (offset + field_byte_count (field_prim f) * field_cells f) = Some vs').
    { destruct f as [t|t n]; cbn [field_var sv_byte_count field_cells field_prim] in *.
      - unfold macro_usize, macro_u32 in E. destruct (offset + field_byte_count t <=? u64_max); [|discriminate E].
        cbn [obind] in E. destruct (id + 1 <=? u32_max); [|discriminate E]. cbn [obind] in E.
        destruct (storage_vars_from fs (id + 1) (offset + field_byte_count t)) as [vs'|] eqn:V; [|discriminate E]. cbn [obind] in E.
        injection E as <-. exists vs'. rewrite N.mul_1_r. auto.
      - unfold macro_usize, macro_u32 in E. destruct (field_byte_count t * n <=? u64_max); [|discriminate E].
        cbn [obind] in E. destruct (offset + field_byte_count t * n <=? u64_max); [|discriminate E].
        cbn [obind] in E. destruct (id + n <=? u32_max); [|discriminate E]. cbn [obind] in E.
        destruct (storage_vars_from fs (id + n) (offset + field_byte_count t * n)) as [vs'|] eqn:V; [|discriminate E]. cbn [obind] in E.
        injection E as <-. exists vs'. auto. }
    destruct X as (vs' & -> & V). destruct (IH _ _ _ V) as [L At]. split; [cbn; lia|].
    intros [|i] g Ng; cbn [nth_error] in *.
    + injection Ng as ->. cbn [firstn count_cells count_bytes fold_right]. unfold count_cells, count_bytes. cbn [fold_right]. now rewrite !N.add_0_r.
    + rewrite (At i g Ng). unfold count_cells, count_bytes; change type_size with field_byte_count. cbn [firstn fold_right]. now rewrite !N.add_assoc.
Qed.
Lemma storage_vars_type f id offset : sv_type (field_var f id offset) = f /\ sv_byte_count (field_var f id offset) = field_byte_count (field_prim f).
Proof. destruct f; split; reflexivity. Qed.

Lemma count_mono fs : forall i j f, (i < j)%nat -> nth_error fs i = Some f ->
  count_cells (firstn i fs) + field_cells f <= count_cells (firstn j fs) /\
  count_bytes (firstn i fs) + field_byte_count (field_prim f) * field_cells f <= count_bytes (firstn j fs).
Proof.
  induction fs as [|g fs IH]; intros i j f L Nf; [destruct i; discriminate Nf|].
  destruct j as [|j]; [lia|]. unfold count_cells, count_bytes in *; change type_size with field_byte_count in *. cbn [firstn fold_right]. destruct i as [|i].
  - injection Nf as ->. cbn [firstn fold_right]. lia.
  - cbn [firstn fold_right nth_error] in *. specialize (IH i j f ltac:(lia) Nf). lia.
Qed.

Lemma storage_disjoint fs vs : storage_vars fs = Some vs -> forall i j v w, nth_error vs i = Some v -> nth_error vs j = Some w -> i <> j ->
  (forall id, owns_id v id -> owns_id w id -> False) /\ (forall b, owns_byte v b -> owns_byte w b -> False).
Proof.
  intros E. destruct (storage_vars_at fs 0 0 vs E) as [L At].
  assert (Q : forall i j v w, nth_error vs i = Some v -> nth_error vs j = Some w -> (i < j)%nat ->
    sv_id v + field_cells (sv_type v) <= sv_id w /\ sv_offset v + sv_byte_count v * field_cells (sv_type v) <= sv_offset w).
  { intros i j v w Ei Ej Lij.
    assert (Li : (i < List.length vs)%nat) by (apply nth_error_Some; congruence).
    assert (Lj : (j < List.length vs)%nat) by (apply nth_error_Some; congruence).
    destruct (nth_error fs i) as [f|] eqn:Fi; [|apply nth_error_None in Fi; lia].
    destruct (nth_error fs j) as [g|] eqn:Fj; [|apply nth_error_None in Fj; lia].
    pose proof (At i f Fi) as Ai. pose proof (At j g Fj) as Aj. rewrite Ei in Ai. rewrite Ej in Aj. injection Ai as ->. injection Aj as ->.
    destruct (count_mono fs i j f Lij Fi). destruct f, g; cbn [field_var sv_id sv_offset sv_type sv_byte_count field_cells field_prim] in *; lia. }
  intros i j v w Ei Ej Ne. unfold owns_id, owns_byte.
  destruct (Nat.lt_total i j) as [Lt|[->|Lt]]; [|contradiction|].
  - destruct (Q i j v w Ei Ej Lt). split; intros; lia.
  - destruct (Q j i w v Ej Ei Lt). split; intros; lia.
Qed.

(** Together the fields take every variable and every byte below the totals. *)
Lemma count_cover fs : forall id, id < count_cells fs ->
  exists i f, nth_error fs i = Some f /\ count_cells (firstn i fs) <= id < count_cells (firstn i fs) + field_cells f.
Proof.
  induction fs as [|f fs IH]; intros id L; [unfold count_cells in L; cbn in L; lia|].
  unfold count_cells in *. cbn [fold_right] in L. destruct (N.lt_ge_cases id (field_cells f)) as [Lt|Ge].
  - exists 0%nat, f. cbn. split; [reflexivity|lia].
  - destruct (IH (id - field_cells f)) as (i & g & Ng & B); [lia|]. exists (S i), g. cbn [firstn fold_right]. split; [exact Ng|lia].
Qed.
Lemma bytes_cover fs : forall b, b < count_bytes fs ->
  exists i f, nth_error fs i = Some f /\ count_bytes (firstn i fs) <= b < count_bytes (firstn i fs) + field_byte_count (field_prim f) * field_cells f.
Proof.
  induction fs as [|f fs IH]; intros b L; [unfold count_bytes in L; cbn in L; lia|].
  unfold count_bytes in *; change type_size with field_byte_count in *. cbn [fold_right] in L. destruct (N.lt_ge_cases b (field_byte_count (field_prim f) * field_cells f)) as [Lt|Ge].
  - exists 0%nat, f. cbn [firstn fold_right nth_error]. split; [reflexivity|lia].
  - destruct (IH (b - field_byte_count (field_prim f) * field_cells f)) as (i & g & Ng & B); [lia|]. exists (S i), g. cbn [firstn fold_right]. split; [exact Ng|lia].
Qed.
Lemma storage_covered fs vs : storage_vars fs = Some vs ->
  (forall id, id < count_cells fs <-> exists v, In v vs /\ owns_id v id) /\
  (forall b, b < count_bytes fs <-> exists v, In v vs /\ owns_byte v b).
Proof.
  intros E. destruct (storage_vars_at fs 0 0 vs E) as [L At].
  assert (B : forall i v, nth_error vs i = Some v -> exists f, nth_error fs i = Some f /\ v = field_var f (count_cells (firstn i fs)) (count_bytes (firstn i fs))).
  { intros i v Ei. assert (Li : (i < List.length vs)%nat) by (apply nth_error_Some; congruence).
    destruct (nth_error fs i) as [f|] eqn:Fi; [|apply nth_error_None in Fi; lia]. exists f. split; [reflexivity|].
    pose proof (At i f Fi) as Ai. rewrite Ei in Ai. injection Ai as ->. reflexivity. }
  split.
  - intros id. split.
    + intros Li. destruct (count_cover fs id Li) as (i & f & Fi & Bd). pose proof (At i f Fi) as Ai. eexists. split; [eapply nth_error_In; exact Ai|].
      unfold owns_id. destruct f; cbn [field_var sv_id sv_type field_cells] in *; lia.
    + intros (v & Iv & O). apply In_nth_error in Iv. destruct Iv as [i Ei]. destruct (B i v Ei) as (f & Fi & ->).
      destruct (count_mono fs i (List.length fs) f) as [M _]; auto; [apply nth_error_Some; congruence|]. rewrite firstn_all in M.
      unfold owns_id in O. destruct f; cbn [field_var sv_id sv_type field_cells] in *; lia.
  - intros b. split.
    + intros Lb. destruct (bytes_cover fs b Lb) as (i & f & Fi & Bd). pose proof (At i f Fi) as Ai. eexists. split; [eapply nth_error_In; exact Ai|].
      unfold owns_byte. destruct f; cbn [field_var sv_offset sv_type sv_byte_count field_cells field_prim] in *; lia.
    + intros (v & Iv & O). apply In_nth_error in Iv. destruct Iv as [i Ei]. destruct (B i v Ei) as (f & Fi & ->).
      destruct (count_mono fs i (List.length fs) f) as [_ M]; auto; [apply nth_error_Some; congruence|]. rewrite firstn_all in M.
      unfold owns_byte in O. destruct f; cbn [field_var sv_offset sv_type sv_byte_count field_cells field_prim] in *; lia.
Qed.

(** ** The layout with the same cells *)
Lemma total_app a b : total (a ++ b) = total a + total b.
Proof. induction a as [|x a IH]; cbn [app total fold_right]; [reflexivity|]. unfold total in *. cbn [fold_right]. rewrite IH. lia. Qed.
Lemma total_repeat s n : total (repeat s n) = s * N.of_nat n.
Proof. induction n as [|n IH]; [cbn; lia|]. unfold total in *. cbn [repeat fold_right]. rewrite IH. lia. Qed.
Lemma cell_sizes_length fs : nlen (cell_sizes fs) = count_cells fs.
Proof.
  induction fs as [|f fs IH]; [reflexivity|]. unfold cell_sizes, count_cells in *. cbn [flat_map fold_right]. rewrite nlen_app, IH.
  unfold nlen. rewrite repeat_length. lia.
Qed.
Lemma cell_sizes_total fs : total (cell_sizes fs) = count_bytes fs.
Proof.
  induction fs as [|f fs IH]; [reflexivity|]. unfold cell_sizes, count_bytes in *; change type_size with field_byte_count in *. cbn [flat_map fold_right]. rewrite total_app, IH, total_repeat. lia.
Qed.
Lemma cell_at fs : forall i f k, nth_error fs i = Some f -> k < field_cells f ->
  nth_error (cell_sizes fs) (N.to_nat (count_cells (firstn i fs) + k)) = Some (field_byte_count (field_prim f)) /\
  total (firstn (N.to_nat (count_cells (firstn i fs) + k)) (cell_sizes fs)) = count_bytes (firstn i fs) + field_byte_count (field_prim f) * k.
Proof.
  intros i f k Fi Lk.
  assert (Sp : cell_sizes fs = cell_sizes (firstn i fs) ++ repeat (field_byte_count (field_prim f)) (N.to_nat (field_cells f)) ++ cell_sizes (skipn (S i) fs)).
  { unfold cell_sizes; change type_size with field_byte_count. rewrite <- (firstn_skipn i fs) at 1. rewrite flat_map_app. f_equal.
    assert (Sk : skipn i fs = f :: skipn (S i) fs).
    { revert Fi. clear. revert fs. induction i as [|i IH]; intros [|g fs] Fi; try discriminate Fi.
      - injection Fi as ->. reflexivity.
      - cbn [skipn nth_error] in *. exact (IH fs Fi). }
    rewrite Sk. reflexivity. }
  pose proof (cell_sizes_length (firstn i fs)) as Ln. unfold nlen in Ln.
  rewrite Sp. split.
  - rewrite nth_error_app2 by lia. rewrite nth_error_app1 by (rewrite repeat_length; lia).
    replace (N.to_nat (count_cells (firstn i fs) + k) - List.length (cell_sizes (firstn i fs)))%nat with (N.to_nat k) by lia.
    apply nth_error_repeat. lia.
  - rewrite firstn_app, firstn_all2 by lia. rewrite total_app, cell_sizes_total. f_equal.
    replace (N.to_nat (count_cells (firstn i fs) + k) - List.length (cell_sizes (firstn i fs)))%nat with (N.to_nat k) by lia.
    rewrite firstn_app, repeat_length. replace (N.to_nat k - N.to_nat (field_cells f))%nat with 0%nat by lia.
    cbn [firstn]. rewrite app_nil_r.
    replace (N.to_nat (field_cells f)) with (N.to_nat k + (N.to_nat (field_cells f) - N.to_nat k))%nat by lia.
    rewrite repeat_app, firstn_app, repeat_length, Nat.sub_diag, firstn_all2 by (rewrite repeat_length; lia). cbn [firstn].
    rewrite app_nil_r, total_repeat. lia.
Qed.
Lemma storage_layout fs vs l : storage_vars fs = Some vs -> from_byte_sizes 0 (cell_sizes fs) = Some l ->
  forall v k, In v vs -> k < field_cells (sv_type v) ->
  layout_get l (sv_id v + k) = Some (mkVar (sv_id v + k) (sv_offset v + sv_byte_count v * k) (sv_byte_count v)).
Proof.
  intros E El v k Iv Lk. destruct (storage_vars_at fs 0 0 vs E) as [L At].
  apply In_nth_error in Iv. destruct Iv as [i Ei]. assert (Li : (i < List.length vs)%nat) by (apply nth_error_Some; congruence).
  destruct (nth_error fs i) as [f|] eqn:Fi; [|apply nth_error_None in Fi; lia].
  pose proof (At i f Fi) as Ai. rewrite Ei, !N.add_0_l in Ai. apply Some_inj in Ai. subst v. destruct (storage_vars_type f (count_cells (firstn i fs)) (count_bytes (firstn i fs))) as [Et Eb].
  rewrite Et in Lk. rewrite Eb. cbn [field_var sv_id sv_offset]. destruct (cell_at fs i f k Fi Lk) as [Sz Tt].
  destruct (layout_get_declared 0 (cell_sizes fs) l (N.to_nat (count_cells (firstn i fs) + k)) El) as (rv & G & Ri & Rs & Ro).
  { apply nth_error_Some. congruence. }
  rewrite N2Nat.id, N.add_0_l in *. rewrite G. rewrite Sz in Rs. rewrite Tt in Ro. destruct rv as [ri ro rs]. cbn in *. congruence.
Qed.
Lemma cell_offset_spec v index n : index < 2 ^ 32 -> v + n <= u32_max ->
  cell_offset v index n = if index <? n then Some (v + index) else None.
Proof.
  intros L1 L2. unfold cell_offset. rewrite N.mod_small by exact L1. destruct (N.ltb_spec index n).
  - replace (n <=? index) with false by lia. now replace (v + index <=? u32_max) with true by lia.
  - now replace (n <=? index) with true by lia.
Qed.
Lemma storage_ids_fit fs : forall id offset vs, storage_vars_from fs id offset = Some vs -> fs <> [] -> id + count_cells fs <= u32_max.
Proof.
  induction fs as [|f fs IH]; intros id offset vs E Ne; [contradiction|].
  cbn [storage_vars_from] in E.
  assert (X : id + field_cells f <= u32_max /\ exists o vs', storage_vars_from fs (id + field_cells f) o = Some vs').
  { destruct f as [t|t n]; cbn [field_var sv_byte_count field_cells field_prim] in *.
    - unfold macro_usize, macro_u32 in E. destruct (offset + field_byte_count t <=? u64_max); [|discriminate E].
      cbn [obind] in E. destruct (N.leb_spec (id + 1) u32_max); [|discriminate E]. cbn [obind] in E.
      destruct (storage_vars_from fs (id + 1) (offset + field_byte_count t)) as [vs'|] eqn:V; [|discriminate E]. eauto.
    - unfold macro_usize, macro_u32 in E. destruct (field_byte_count t * n <=? u64_max); [|discriminate E].
      cbn [obind] in E. destruct (offset + field_byte_count t * n <=? u64_max); [|discriminate E].
      cbn [obind] in E. destruct (N.leb_spec (id + n) u32_max); [|discriminate E]. cbn [obind] in E.
      destruct (storage_vars_from fs (id + n) (offset + field_byte_count t * n)) as [vs'|] eqn:V; [|discriminate E]. eauto. }
  destruct X as (L & o & vs' & V). unfold count_cells in *. cbn [fold_right]. destruct fs as [|g fs]; [cbn; lia|].
  specialize (IH _ _ _ V ltac:(discriminate)). lia.
Qed.
Lemma array_access fs vs v index : storage_vars fs = Some vs -> In v vs -> index < 2 ^ 32 ->
  cell_offset (sv_id v) index (field_cells (sv_type v)) = if index <? field_cells (sv_type v) then Some (sv_id v + index) else None.
Proof.
  intros E Iv L. apply cell_offset_spec; [exact L|].
  assert (Ne : fs <> []). { intros ->. cbn in E. injection E as <-. contradiction. }
  pose proof (storage_ids_fit fs 0 0 vs E Ne) as F.
  destruct (N.eq_dec (field_cells (sv_type v)) 0) as [Z|NZ].
  - rewrite Z. destruct (storage_vars_at fs 0 0 vs E) as [Ln At]. apply In_nth_error in Iv. destruct Iv as [i Ei].
    assert (Li : (i < List.length vs)%nat) by (apply nth_error_Some; congruence).
    destruct (nth_error fs i) as [f|] eqn:Fi; [|apply nth_error_None in Fi; lia].
    pose proof (At i f Fi) as Ai. rewrite Ei in Ai. injection Ai as ->.
    destruct (count_mono fs i (List.length fs) f) as [M _]; auto; [apply nth_error_Some; congruence|]. rewrite firstn_all in M.
    cbn [field_var sv_id]. lia.
  - destruct (storage_covered fs vs E) as [C _].
    assert (sv_id v + (field_cells (sv_type v) - 1) < count_cells fs); [|lia].
    apply C. exists v. split; [exact Iv|]. unfold owns_id. lia.
Qed.

(** ** Strings *)
Lemma ensure_ascii_not b : 128 <= b -> b < 256 -> ensure_ascii b = None.
Proof.
  intros L U. unfold ensure_ascii, ensure. destruct (N.eqb_spec (N.land b 128) 0) as [E|]; [|reflexivity]. exfalso.
  assert (K : N.testbit (N.land b 128) 7 = false) by (now rewrite E).
  rewrite N.land_spec in K. change (N.testbit 128 7) with true in K. rewrite andb_true_r in K.
  apply N.testbit_false in K. change (2 ^ 7) with 128 in K. assert (b / 128 = 1) by (symmetry; apply (N.div_unique _ _ _ (b - 128)); lia). rewrite H in K. discriminate K.
Qed.
Lemma all_ascii_not bs : Forall (fun b => b < 256) bs -> ~ is_ascii bs -> all_ascii bs = None.
Proof.
  induction 1 as [|b bs B _ IH]; intros Na; [exfalso; apply Na; constructor|]. cbn [all_ascii]. destruct (N.lt_ge_cases b 128) as [L|L].
  - rewrite ensure_ascii_ok by exact L. apply IH. intros A. apply Na. constructor; assumption.
  - now rewrite ensure_ascii_not by assumption.
Qed.
Lemma short_any bs : nlen bs <= 8 -> shows (new_short_inner bs false) bs.
Proof.
  intros L. unfold new_short_inner, ensure. replace (nlen bs <=? 8) with true by lia. cbn [obind].
  eexists. split; [reflexivity|]. cbn [string_bytes].
  replace (nlen bs <=? nlen (bs ++ repeat 0 (8 - List.length bs)%nat)) with true by (rewrite nlen_app; lia).
  unfold nlen. rewrite Nat2N.id, firstn_app, Nat.sub_diag, firstn_all. cbn. now rewrite app_nil_r.
Qed.
Lemma unchecked_any v cap t : holds v cap t -> shows (new_unchecked v) t.
Proof.
  intros H. unfold new_unchecked. pose proof H as (_ & Ln & _). destruct (N.leb_spec (fv_len v) 8).
  - rewrite (holds_slice v cap t H). cbn [obind]. apply short_any. lia.
  - eexists. split; [reflexivity|]. cbn [string_bytes]. eapply holds_slice; eauto.
Qed.
Lemma push_bytes_not bs : forall v cap l, holds v cap l -> Forall (fun b => b < 256) bs -> ~ is_ascii bs -> push_bytes v bs = None.
Proof.
  induction bs as [|b bs IH]; intros v cap l H B Na; [exfalso; apply Na; constructor|]. apply Forall_cons_iff in B as [Bb B]. cbn [push_bytes].
  destruct (N.lt_ge_cases b 128) as [L|L]; [|now rewrite ensure_ascii_not by assumption]. rewrite ensure_ascii_ok by exact L. cbn [obind].
  destruct (N.lt_ge_cases (nlen l) cap) as [Lt|Ge].
  - destruct (holds_push v cap l b H Lt) as (v1 & -> & H1). cbn [obind]. apply (IH v1 cap _ H1 B). intros A. apply Na. constructor; assumption.
  - pose proof (push_bytes_full (b :: bs) v cap l H) as F. rewrite nlen_cons in F. specialize (F ltac:(lia)). cbn [push_bytes] in F.
    rewrite ensure_ascii_ok in F by exact L. exact F.
Qed.
(** What a builder accepts. *)
Lemma push_all_spec ss ts : Forall2 (fun s t => string_bytes s = Some t /\ Forall (fun b => b < 256) t) ss ts -> forall v cap l, holds v cap l ->
  (Forall (fun t => is_ascii t /\ nlen t < 256) ts /\ nlen l + nlen (concat ts) <= cap -> exists v', push_all v ss = Some v' /\ holds v' cap (l ++ concat ts))
  /\ (~ (Forall (fun t => is_ascii t /\ nlen t < 256) ts /\ nlen l + nlen (concat ts) <= cap) -> push_all v ss = None).
Proof.
  induction 1 as [|s t ss ts [S B] _ IH]; intros v cap l H; cbn [concat push_all].
  - rewrite app_nil_r. split; [eauto|]. intros Na. exfalso. apply Na. split; [constructor|]. change (nlen (@nil N)) with 0. destruct H as (_ & _ & Le & _). lia.
  - split.
    + intros [F L]. apply Forall_cons_iff in F as [[A Lt] F]. rewrite nlen_app in L.
      destruct (push_str_ok v cap l s t H S A Lt) as (v1 & E & H1); [lia|]. rewrite E. cbn [obind].
      destruct (proj1 (IH v1 cap _ H1)) as (v2 & E2 & H2); [split; [exact F|rewrite nlen_app; lia]|]. exists v2. rewrite <- app_assoc in H2. auto.
    + intros Na. unfold push_str at 1. rewrite S. cbn [obind]. unfold ensure. destruct (N.ltb_spec (nlen t) 256) as [Lt|]; [|reflexivity]. cbn [obind].
      assert (D : is_ascii t \/ ~ is_ascii t).
      { unfold is_ascii. destruct (Forall_dec (fun b => b < 128)) with (l := t); [|tauto..]. intros x. destruct (x <? 128) eqn:E; [left; now apply N.ltb_lt|right; apply N.ltb_ge in E; lia]. }
      destruct D as [A|A]; [|now rewrite (push_bytes_not t v cap l H B A)].
      destruct (N.le_gt_cases (nlen l + nlen t) cap) as [Lc|Gc]; [|now rewrite (push_bytes_full t v cap l H Gc)].
      destruct (push_bytes_ok t v cap l H A Lc) as (v1 & -> & H1). cbn [obind]. apply (proj2 (IH v1 cap _ H1)). intros [F L]. apply Na.
      split; [constructor; [split; assumption|exact F]|]. rewrite nlen_app in *. lia.
Qed.
