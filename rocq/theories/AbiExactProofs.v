(** The ABI decoder against the bytes that say values. *)
From Coq Require Import List NArith ZArith Arith Bool Lia ZifyBool ZifyNat ZifyN.
From Verif Require Import Base SdkModel SdkSpec SdkProofs AbiModel AbiSpec AbiProofs AbiExactSpec.
Import ListNotations.
Open Scope list_scope.
Open Scope N_scope.

(** How many bytes follow a marker, and what they give. *)
Definition payload (m : N) : option (N * (bytes -> primitive)) :=
  let amount n := Some (n, fun s => PAmount (be_value s)) in
  let int t n := Some (n, fun s => PInt t (as_ity t (Z.of_N (be_value s)))) in
  match m with
  | 32 => Some (0, fun _ => PNone)
  | 48 => Some (0, fun _ => PUnit)
  | 0 => Some (0, fun _ => PBool false)
  | 16 => Some (0, fun _ => PBool true)
  | 64 => Some (20, PAddress)
  | 1 => amount 1 | 17 => amount 2 | 33 => amount 3 | 49 => amount 4 | 65 => amount 5 | 81 => amount 6 | 97 => amount 7 | 113 => amount 8
  | 2 => int I8 1 | 18 => int U8 1
  | 34 => int I16 1 | 50 => int I16 2 | 66 => int U16 1 | 82 => int U16 2
  | 3 => int I32 1 | 19 => int I32 2 | 35 => int I32 3 | 51 => int I32 4
  | 67 => int U32 1 | 83 => int U32 2 | 99 => int U32 3 | 115 => int U32 4
  | 4 => int I64 1 | 20 => int I64 2 | 36 => int I64 3 | 52 => int I64 4 | 68 => int I64 5 | 84 => int I64 6 | 100 => int I64 7 | 116 => int I64 8
  | 5 => int U64 1 | 21 => int U64 2 | 37 => int U64 3 | 53 => int U64 4 | 69 => int U64 5 | 85 => int U64 6 | 101 => int U64 7 | 117 => int U64 8
  | _ => None
  end.
Definition markers : list N :=
  [32; 48; 0; 16; 64; 1; 17; 33; 49; 65; 81; 97; 113; 2; 18; 34; 50; 66; 82; 3; 19; 35; 51; 67; 83; 99; 115;
   4; 20; 36; 52; 68; 84; 100; 116; 5; 21; 37; 53; 69; 85; 101; 117].
Definition array_markers : list N := [6; 22; 38; 54; 70; 86; 102; 118; 7; 23; 39].

Lemma split_at (t : bytes) n : n <= nlen t -> exists s r, t = s ++ r /\ nlen s = n.
Proof.
  intros L. exists (firstn (N.to_nat n) t), (skipn (N.to_nat n) t). split; [now rewrite firstn_skipn|]. unfold nlen in *. rewrite firstn_length. lia.
Qed.
Lemma short_read pre t n : nlen t < n -> cu_read_bytes (at_ pre t) n = Err NotEnoughBytes.
Proof.
  intros L. unfold cu_read_bytes, at_. cbn [cu_bytes cu_offset]. rewrite nlen_app. now replace (nlen pre + n <=? nlen pre + nlen t) with false by lia.
Qed.
Lemma num_read pre s r n : nlen s = n -> 0 < n -> n <= 8 -> read_num (at_ pre (s ++ r)) n = Ok (be_value s, at_ (pre ++ s) r).
Proof.
  intros L P U. unfold read_num. replace ((0 <? n) && (n <=? 8)) with true by lia. rewrite at_read_bytes by exact L. cbn [bind]. now rewrite be_value_zeros.
Qed.
Lemma num_short pre t n : nlen t < n -> 0 < n -> n <= 8 -> read_num (at_ pre t) n = Err NotEnoughBytes.
Proof. intros L P U. unfold read_num. replace ((0 <? n) && (n <=? 8)) with true by lia. now rewrite short_read. Qed.

Lemma kind_markers m : (exists k, kind_of m = Ok k) -> In m markers \/ In m array_markers.
Proof.
  unfold kind_of. intros [k H].
  repeat match type of H with
  | (if ?b then _ else _) = _ => destruct b eqn:?E; [clear H|]
  end; try discriminate H;
  repeat match goal with
  | E : one_of _ _ = true |- _ => unfold one_of in E; apply existsb_exists in E; destruct E as (x & I & E); apply N.eqb_eq in E; subst x
  | E : (_ =? _) = true |- _ => apply N.eqb_eq in E; subst m
  | E : _ = false |- _ => clear E
  end;
  try (left; vm_compute; tauto);
  unfold markers, array_markers, In in *; vm_compute in I; tauto.
Qed.
Lemma payload_in m : In m markers <-> payload m <> None.
Proof.
  split.
  - intros I. unfold markers in I. repeat (destruct I as [<-|I]; [discriminate|]). destruct I.
  - intros H. unfold payload in H. repeat (match type of H with context [match ?x with _ => _ end] => destruct x end); first [now elim H|unfold markers; cbn; tauto].
Qed.
Lemma array_not_prim m : In m array_markers -> payload m = None.
Proof. intros I. unfold array_markers in I. repeat (destruct I as [<-|I]; [reflexivity|]). destruct I. Qed.
Lemma array_kind m : In m array_markers <-> kind_of m = Ok KArray.
Proof.
  split; [intros I; unfold array_markers in I; repeat (destruct I as [<-|I]; [reflexivity|]); destruct I|].
  intros H. destruct (kind_markers m (ex_intro _ _ H)) as [I|I]; [|exact I]. exfalso. unfold markers in I. repeat (destruct I as [<-|I]; [discriminate H|]). destruct I.
Qed.
(** Reading a primitive is a matter of its marker and the number of bytes that are left. *)
Lemma prim_step pre m t :
  decode_primitive (at_ pre (m :: t)) =
  match payload m with
  | None => Panic
  | Some (n, f) => if n <=? nlen t then Ok (f (firstn (N.to_nat n) t), at_ (pre ++ m :: firstn (N.to_nat n) t) (skipn (N.to_nat n) t)) else Err NotEnoughBytes
  end.
Proof.
  unfold decode_primitive, peek_kind. rewrite at_peek. cbn [bind].
  destruct (payload m) as [[n f]|] eqn:P.
  2:{ destruct (kind_of m) as [k|e|] eqn:K; cbn [bind]; [| |reflexivity].
      - destruct (kind_markers m (ex_intro _ _ K)) as [I|I]; [apply payload_in in I; congruence|]. apply array_kind in I. rewrite I in K. injection K as <-. reflexivity.
      - exfalso. revert K. clear. unfold kind_of. repeat (match goal with |- (if ?b then _ else _) = _ -> _ => destruct b; [discriminate|] end). discriminate. }
  assert (I : In m markers) by (apply payload_in; congruence).
  assert (Q : forall A (k : bytes -> cursor -> dec A), (n <= nlen t -> exists s r, t = s ++ r /\ nlen s = n /\ firstn (N.to_nat n) t = s /\ skipn (N.to_nat n) t = r)).
  { intros _ _ L. destruct (split_at t n L) as (s & r & -> & Ls). exists s, r. split; [reflexivity|]. split; [exact Ls|].
    replace (N.to_nat n) with (length s + 0)%nat by (unfold nlen in Ls; lia). rewrite firstn_app_2, skipn_app, Nat.add_0_r, skipn_all, Nat.sub_diag. cbn. now rewrite app_nil_r. }
  specialize (Q unit (fun _ _ => Ok tt)).
  unfold markers in I.
  repeat (destruct I as [<-|I]; [
    cbn in P; injection P as <- <-;
    match goal with |- context [kind_of ?x] => let y := eval vm_compute in (kind_of x) in change (kind_of x) with y end; cbn [bind];
    unfold decode_amount, decode_int, decode_i8, decode_i16, decode_i32, decode_i64; rewrite at_read_byte; cbn [bind];
    repeat match goal with
    | |- context [pick ?x ?l] => let y := eval vm_compute in (pick x l) in change (pick x l) with y; cbn [bind]
    | |- context [one_of ?x ?l] => let y := eval vm_compute in (one_of x l) in change (one_of x l) with y; cbv iota
    | |- context [?x =? ?y] => let z := eval vm_compute in (x =? y) in change (x =? y) with z; cbv iota
    end;
    match goal with |- context [?n <=? nlen t] => destruct (N.leb_spec n (nlen t)) as [L|L] end;
    [destruct (Q L) as (s & r & -> & Ls & -> & ->);
     first [rewrite num_read by (assumption || reflexivity || discriminate); cbn [bind ity_signed]; rewrite ?as_ity_again by reflexivity; rewrite <- app_assoc; reflexivity
           |rewrite at_read_bytes by exact Ls; cbn [bind]; rewrite <- app_assoc; reflexivity
           |destruct s; [reflexivity|exfalso; rewrite nlen_cons in Ls; lia]]
    |first [rewrite num_short by (assumption || reflexivity || discriminate); reflexivity|rewrite short_read by exact L; reflexivity|lia]]|]).
  destruct I.
Qed.

(** The grammar, marker by marker. *)
Lemma number_is s : number_of s = be_value s.
Proof. reflexivity. Qed.
Lemma cast_back t s : bytes_ok s -> (8 * Z.of_N (nlen s) <= ity_bits t)%Z -> complement t (as_ity t (Z.of_N (be_value s))) = be_value s.
Proof.
  intros B L. tables. rewrite as_ity_mod. pose proof (be_value_bound s B) as U.
  assert (X : (Z.of_N (be_value s) < 2 ^ ity_bits t)%Z).
  { apply Z.lt_le_trans with (Z.of_N (256 ^ nlen s)); [lia|]. rewrite N2Z.inj_pow. change (Z.of_N 256) with (2 ^ 8)%Z. rewrite <- Z.pow_mul_r by lia.
    apply Z.pow_le_mono_r; lia. }
  rewrite Z.mod_small by lia. lia.
Qed.
Lemma nlen_range (s : bytes) n : 1 <= nlen s -> nlen s <= n -> n <= 8 ->
  nlen s = 1 \/ nlen s = 2 \/ nlen s = 3 \/ nlen s = 4 \/ nlen s = 5 \/ nlen s = 6 \/ nlen s = 7 \/ nlen s = 8.
Proof. lia. Qed.
Lemma says_payload b p : bytes_ok b -> (says_prim b p <-> exists m s n f, b = m :: s /\ payload m = Some (n, f) /\ nlen s = n /\ p = f s).
Proof.
  intros B. split.
  - destruct p as [| |f|a|n|t z]; cbn [says_prim].
    + intros ->. exists (mark 2 0), []. do 2 eexists. repeat split.
    + intros ->. exists (mark 3 0), []. do 2 eexists. repeat split.
    + intros ->. exists (mark (if f then 1 else 0) 0), []. destruct f; do 2 eexists; repeat split.
    + intros [L ->]. exists (mark 4 0), a. do 2 eexists. repeat split. unfold nlen. lia.
    + intros (s & [L1 L2] & <- & ->). destruct (nlen_range s 8 L1 L2 ltac:(lia)) as [L|[L|[L|[L|[L|[L|[L|L]]]]]]]; rewrite L;
        do 4 eexists; (split; [reflexivity|]); (split; [reflexivity|]); (split; [exact L|reflexivity]).
    + intros (s & L1 & L2 & R & C & ->). inversion B as [|? ? _ Bs]; subst.
      assert (Ez : z = as_ity t (Z.of_N (be_value s))) by (change (be_value s) with (number_of s); rewrite <- C; symmetry; now apply complement_back).
      assert (L3 : nlen s <= 8) by (destruct t; cbn [int_bits] in L2; lia).
      destruct (nlen_range s 8 L1 L3 ltac:(lia)) as [L|[L|[L|[L|[L|[L|[L|L]]]]]]]; rewrite L in *; destruct t; cbn [int_bits] in L2; try lia;
        do 4 eexists; (split; [reflexivity|]); (split; [reflexivity|]); (split; [exact L|rewrite Ez; reflexivity]).
  - intros (m & s & n & f & -> & P & L & ->). inversion B as [|? ? _ Bs]; subst.
    assert (I : In m markers) by (apply payload_in; congruence). unfold markers in I.
    assert (Int : forall t, 1 <= nlen s -> (8 * Z.of_N (nlen s) <= ity_bits t)%Z -> says_prim (int_mark t (nlen s) :: s) (PInt t (as_ity t (Z.of_N (be_value s))))).
    { intros t L1 L2. exists s. split; [exact L1|]. split; [exact L2|]. split; [apply as_ity_range|]. split; [now apply cast_back|reflexivity]. }
    repeat (destruct I as [<-|I]; [
      cbn in P; injection P as Ln <-;
      first
      [ destruct s as [|x s]; [reflexivity|exfalso; rewrite nlen_cons in Ln; lia]
      | split; [unfold nlen in Ln; lia|reflexivity]
      | exists s; split; [lia|]; split; [reflexivity|rewrite <- Ln; reflexivity]
      | match goal with |- says_prim _ (PInt ?t _) => specialize (Int t) end; rewrite <- Ln in Int; apply Int; [discriminate|vm_compute; discriminate]]|]).
    destruct I.
Qed.

Lemma firstn_exact (s r : bytes) : firstn (N.to_nat (nlen s)) (s ++ r) = s.
Proof. unfold nlen. rewrite Nat2N.id, <- (Nat.add_0_r (length s)), firstn_app_2. cbn. apply app_nil_r. Qed.
Lemma skipn_exact (s r : bytes) : skipn (N.to_nat (nlen s)) (s ++ r) = r.
Proof. unfold nlen. rewrite Nat2N.id, skipn_app, skipn_all, Nat.sub_diag. reflexivity. Qed.
Lemma prim_empty pre : decode_primitive (at_ pre []) = Err NotEnoughBytes.
Proof. unfold decode_primitive, peek_kind, cu_peek. rewrite at_eof. reflexivity. Qed.
Lemma prim_says pre b rest p : bytes_ok b -> says_prim b p -> decode_primitive (at_ pre (b ++ rest)) = Ok (p, at_ (pre ++ b) rest).
Proof.
  intros B H. apply says_payload in H; [|exact B]. destruct H as (m & s & n & f & -> & P & <- & ->). cbn [app]. rewrite prim_step, P.
  rewrite nlen_app. replace (nlen s <=? nlen s + nlen rest) with true by lia. now rewrite firstn_exact, skipn_exact.
Qed.
Lemma prim_read pre tail p c : bytes_ok tail -> decode_primitive (at_ pre tail) = Ok (p, c) ->
  exists b rest, tail = b ++ rest /\ says_prim b p /\ c = at_ (pre ++ b) rest.
Proof.
  intros B. destruct tail as [|m t]; [rewrite prim_empty; discriminate|]. rewrite prim_step. destruct (payload m) as [[n f]|] eqn:P; [|discriminate].
  destruct (N.leb_spec n (nlen t)) as [L|L]; [|discriminate]. intros [= <- <-]. exists (m :: firstn (N.to_nat n) t), (skipn (N.to_nat n) t).
  split; [cbn; now rewrite firstn_skipn|]. split; [|reflexivity]. apply says_payload.
  - inversion B as [|? ? B1 B2]; subst. constructor; [exact B1|]. rewrite <- (firstn_skipn (N.to_nat n) t) in B2. apply Forall_app in B2. apply B2.
  - do 4 eexists. split; [reflexivity|]. split; [exact P|]. split; [|reflexivity]. unfold nlen in *. rewrite firstn_length. lia.
Qed.
Definition prim_cut (b : bytes) : Prop := exists more p, more <> [] /\ bytes_ok more /\ says_prim (b ++ more) p.
Lemma zeros_ok n : bytes_ok (repeat 0 n).
Proof. induction n; constructor; [reflexivity|assumption]. Qed.
Lemma prim_err pre tail : bytes_ok tail -> ((exists e, decode_primitive (at_ pre tail) = Err e) <-> prim_cut tail).
Proof.
  intros B. destruct tail as [|m t].
  - rewrite prim_empty. split; [|eauto]. intros _. exists [32], PNone. split; [discriminate|]. split; [repeat constructor|reflexivity].
  - rewrite prim_step. split.
    + intros [e E]. destruct (payload m) as [[n f]|] eqn:P; [|discriminate E]. destruct (N.leb_spec n (nlen t)) as [L|L]; [discriminate E|].
      exists (repeat 0 (N.to_nat (n - nlen t))), (f (t ++ repeat 0 (N.to_nat (n - nlen t)))).
      split; [destruct (N.to_nat (n - nlen t)) eqn:Z; [lia|discriminate]|]. split; [apply zeros_ok|]. apply says_payload; [apply Forall_app; split; [exact B|apply zeros_ok]|].
      cbn [app]. do 4 eexists. split; [reflexivity|]. split; [exact P|]. split; [|reflexivity]. rewrite nlen_app. unfold nlen at 2. rewrite repeat_length. lia.
    + intros (more & p & Nm & Bm & H). apply says_payload in H; [|apply Forall_app; auto]. destruct H as (m' & s & n & f & E & P & L & _). injection E as <- <-.
      rewrite P. rewrite nlen_app in L. replace (n <=? nlen t) with false; [eauto|]. destruct more; [now elim Nm|]. rewrite nlen_cons in L. lia.
Qed.

(** Elements of an array. *)
Lemma elements_read n : forall vs cap l pre tail vs' c, bytes_ok tail -> holds vs cap l -> decode_elements n vs (at_ pre tail) = Ok (vs', c) ->
  exists bs ps rest, length ps = n /\ tail = concat bs ++ rest /\ Forall2 says_prim bs ps /\ c = at_ (pre ++ concat bs) rest /\ holds vs' cap (l ++ map VPrim ps).
Proof.
  induction n as [|n IH]; intros vs cap l pre tail vs' c B H E; cbn [decode_elements] in E.
  - injection E as <- <-. exists [], [], tail. split; [reflexivity|]. split; [reflexivity|]. split; [constructor|]. cbn. rewrite !app_nil_r. auto.
  - destruct (decode_primitive (at_ pre tail)) as [[p c1]| |] eqn:D; cbn [bind] in E; try discriminate E.
    destruct (prim_read _ _ _ _ B D) as (b & rest & -> & S1 & ->). destruct (vec_push vs (VPrim p)) as [v1|] eqn:Pu; [|discriminate E].
    apply Forall_app in B. destruct B as [B1 B2].
    assert (H1 : holds v1 cap (l ++ [VPrim p])).
    { destruct (N.lt_ge_cases (nlen l) cap) as [Lt|Ge]; [destruct (holds_push vs cap l (VPrim p) H Lt) as (w & Ew & Hw); congruence|].
      rewrite (holds_push_full vs cap l (VPrim p) H) in Pu by exact Ge. discriminate Pu. }
    destruct (IH _ _ _ _ _ _ _ B2 H1 E) as (bs & ps & r2 & Ln & -> & F & -> & H2).
    exists (b :: bs), (p :: ps), r2. split; [cbn; now rewrite Ln|]. cbn [concat map]. split; [now rewrite app_assoc|]. split; [now constructor|].
    split; [now rewrite app_assoc|]. now rewrite <- app_assoc in H2.
Qed.
Lemma elements_say bs : forall ps vs cap l pre rest, Forall bytes_ok bs -> Forall2 says_prim bs ps -> holds vs cap l -> nlen l + nlen ps <= cap ->
  exists vs', decode_elements (length ps) vs (at_ pre (concat bs ++ rest)) = Ok (vs', at_ (pre ++ concat bs) rest) /\ holds vs' cap (l ++ map VPrim ps).
Proof.
  induction bs as [|b bs IH]; intros ps vs cap l pre rest B F H L; inversion F as [|? p ? ps' S1 F']; subst.
  - exists vs. cbn. rewrite !app_nil_r. auto.
  - inversion B as [|? ? B1 B2]; subst. rewrite nlen_cons in L. cbn [length decode_elements concat]. rewrite <- app_assoc, (prim_says _ _ _ _ B1 S1). cbn [bind].
    destruct (holds_push vs cap l (VPrim p) H) as (v1 & -> & H1); [lia|].
    destruct (IH ps' v1 cap (l ++ [VPrim p]) (pre ++ b) rest B2 F' H1) as (v2 & E & H2); [rewrite nlen_app; change (nlen [VPrim p]) with 1; lia|].
    exists v2. cbn [map]. rewrite E, <- !app_assoc in *. auto.
Qed.
Lemma concat_ok (bs : list bytes) : bytes_ok (concat bs) -> Forall bytes_ok bs.
Proof. induction bs as [|b bs IH]; constructor; cbn [concat] in H; apply Forall_app in H; [apply H|apply IH; apply H]. Qed.
Lemma ok_concat (bs : list bytes) : Forall bytes_ok bs -> bytes_ok (concat bs).
Proof. induction 1; [constructor|]. cbn [concat]. apply Forall_app. auto. Qed.
Lemma nones n : Forall2 says_prim (repeat [32] n) (repeat PNone n) /\ bytes_ok (concat (repeat [32] n)).
Proof. induction n as [|n [IH1 IH2]]; cbn; split; constructor; auto; reflexivity. Qed.
Definition elements_cut (n : nat) (tail : bytes) : Prop :=
  exists more bs ps, more <> [] /\ bytes_ok more /\ length ps = n /\ Forall2 says_prim bs ps /\ tail ++ more = concat bs.
Lemma elements_err n : forall vs cap l pre tail, bytes_ok tail -> holds vs cap l -> nlen l + N.of_nat n <= cap + 1 ->
  ((exists e, decode_elements n vs (at_ pre tail) = Err e) <-> elements_cut n tail).
Proof.
  induction n as [|n IH]; intros vs cap l pre tail B H L; cbn [decode_elements].
  - split; [intros [e E]; discriminate E|]. intros (more & bs & ps & Nm & _ & Lp & F & E). destruct ps; [|discriminate Lp]. inversion F; subst. cbn in E.
    apply app_eq_nil in E. destruct E as [_ E]. now elim Nm.
  - split.
    + intros [e E]. destruct (decode_primitive (at_ pre tail)) as [[p c1]|e'|] eqn:D; cbn [bind] in E; [| |discriminate E].
      * destruct (prim_read _ _ _ _ B D) as (b & rest & -> & S1 & ->). apply Forall_app in B. destruct B as [B1 B2].
        destruct (vec_push vs (VPrim p)) as [v1|] eqn:Pu; [|discriminate E].
        assert (Lt : nlen l < cap). { destruct (N.lt_ge_cases (nlen l) cap) as [Lt|Ge]; [exact Lt|]. rewrite (holds_push_full vs cap l (VPrim p) H) in Pu by exact Ge. discriminate Pu. }
        destruct (holds_push vs cap l (VPrim p) H Lt) as (w & Ew & Hw). rewrite Ew in Pu. injection Pu as ->.
        destruct (proj1 (IH v1 cap (l ++ [VPrim p]) (pre ++ b) rest B2 Hw ltac:(rewrite nlen_app; change (nlen [VPrim p]) with 1; lia)) (ex_intro _ e E))
          as (more & bs & ps & Nm & Bm & Lp & F & Ec).
        exists more, (b :: bs), (p :: ps). split; [exact Nm|]. split; [exact Bm|]. split; [cbn; now rewrite Lp|]. split; [now constructor|].
        cbn [concat]. now rewrite <- app_assoc, Ec.
      * destruct (proj1 (prim_err pre tail B) (ex_intro _ e' D)) as (more & p & Nm & Bm & S1). destruct (nones n) as [F Bn].
        exists (more ++ concat (repeat [32] n)), ((tail ++ more) :: repeat [32] n), (p :: repeat PNone n).
        split; [intros X; apply app_eq_nil in X; now elim Nm|]. split; [apply Forall_app; auto|]. split; [cbn; now rewrite repeat_length|]. split; [now constructor|].
        cbn [concat]. apply app_assoc.
    + intros (more & bs & ps & Nm & Bm & Lp & F & E). inversion F as [|b p bs' ps' S1 F']; subst; [discriminate Lp|]. cbn [concat length] in *. injection Lp as Lp.
      assert (Ball : bytes_ok (b ++ concat bs')) by (rewrite <- E; apply Forall_app; auto). apply Forall_app in Ball. destruct Ball as [Bb Bc].
      assert (First : forall r, tail = b ++ r -> concat bs' = r ++ more -> exists e, (let* (p0, c) := decode_primitive (at_ pre tail) in match vec_push vs (VPrim p0) with Some vs0 => decode_elements n vs0 c | None => Panic end) = Err e).
      { intros r -> Er. rewrite (prim_says _ _ _ _ Bb S1). cbn [bind].
        assert (Lt : nlen l < cap).
        { destruct n as [|n]; [|lia]. destruct ps'; [|discriminate Lp]. inversion F'; subst. cbn in Er. symmetry in Er. apply app_eq_nil in Er. now elim Nm. }
        destruct (holds_push vs cap l (VPrim p) H Lt) as (w & Ew & Hw). rewrite Ew. apply Forall_app in B. destruct B as [_ Br].
        apply (proj2 (IH w cap (l ++ [VPrim p]) (pre ++ b) r Br Hw ltac:(rewrite nlen_app; change (nlen [VPrim p]) with 1; lia))).
        exists more, bs', ps'. auto. }
      apply app_eq_app in E. destruct E as (r & [[Et Ec]|[Eb Em]]); [eapply First; eauto|].
      destruct r as [|x r]; [rewrite app_nil_r in Eb; apply (First []); [now rewrite app_nil_r|exact (eq_sym Em)]|].
      assert (C : prim_cut tail). { exists (x :: r), p. split; [discriminate|]. split; [|now rewrite <- Eb]. rewrite Eb in Bb. apply Forall_app in Bb. apply Bb. }
      apply prim_err with (pre := pre) in C; [|exact B]. destruct C as [e C]. rewrite C. cbn [bind]. eauto.
Qed.
(** Whole values. *)
Lemma array_marked m : In m array_markers -> exists n, n <= 10 /\ m = array_mark n /\ (n <> 8 -> n <= m) /\ (n = 8 -> m = 7) /\
  pick m [([L_ARR_0], 0); ([L_ARR_1], 1); ([L_ARR_2], 2); ([L_ARR_3], 3); ([L_ARR_4], 4); ([L_ARR_5], 5); ([L_ARR_6], 6); ([L_ARR_7], 7); ([L_ARR_8], 8); ([L_ARR_9], 9); ([L_ARR_10], 10)] = Ok n.
Proof.
  intros I. unfold array_markers in I.
  repeat (destruct I as [<-|I]; [eexists; split; [|split; [|split; [|split; [|vm_compute; reflexivity]]]]; [lia|reflexivity|lia|lia]|]). destruct I.
Qed.
Lemma mark_in n : n <= 10 -> In (array_mark n) array_markers.
Proof.
  intros L. assert (C : n = 0 \/ n = 1 \/ n = 2 \/ n = 3 \/ n = 4 \/ n = 5 \/ n = 6 \/ n = 7 \/ n = 8 \/ n = 9 \/ n = 10) by lia.
  repeat (destruct C as [->|C]; [vm_compute; tauto|]). subst. vm_compute. tauto.
Qed.
Lemma array_mark_inj n k : n <= 10 -> k <= 10 -> array_mark n = array_mark k -> n = k.
Proof. intros L1 L2. unfold array_mark, mark. destruct (N.ltb_spec n 8), (N.ltb_spec k 8); lia. Qed.
Lemma value_step pre m t : decode_value (at_ pre (m :: t)) =
  match kind_of m with
  | Ok KArray => decode_array (at_ pre (m :: t))
  | _ => let* (p, c) := decode_primitive (at_ pre (m :: t)) in Ok (VPrim p, c)
  end.
Proof.
  unfold decode_value, peek_kind. rewrite at_eof, at_peek. cbn [bind]. destruct (kind_of m) as [[| | | | | |]|e|] eqn:K; cbn [bind]; try reflexivity.
  - unfold decode_primitive, peek_kind. rewrite at_peek. cbn [bind]. rewrite K. reflexivity.
  - unfold decode_primitive, peek_kind. rewrite at_peek. cbn [bind]. rewrite K. reflexivity.
Qed.
Lemma bound_ok {E A B} (m : outcome E A) (k : A -> outcome E B) b : bind m k = Ok b -> exists a, m = Ok a /\ k a = Ok b.
Proof. destruct m; try discriminate. eauto. Qed.
Lemma not_array m x : payload m = Some x -> kind_of m <> Ok KArray.
Proof. intros P K. apply array_kind in K. apply array_not_prim in K. congruence. Qed.
Lemma prim_value pre m t : kind_of m <> Ok KArray -> decode_value (at_ pre (m :: t)) = let* (p, c) := decode_primitive (at_ pre (m :: t)) in Ok (VPrim p, c).
Proof. intros N. rewrite value_step. destruct (kind_of m) as [[]|e|]; try reflexivity. now elim N. Qed.
Lemma array_step pre m t n : n <= 10 -> m = array_mark n ->
  decode_value (at_ pre (m :: t)) =
  let* (vs, c) := decode_elements (N.to_nat n) (vec_with_capacity m) (at_ (pre ++ [m]) t) in
  match vec_as_slice vs with Some l => Ok (VVec l, c) | None => Panic end.
Proof.
  intros L ->. rewrite value_step. pose proof (mark_in n L) as I. rewrite (proj1 (array_kind _) I).
  destruct (array_marked _ I) as (n' & L' & E & _ & _ & P). apply array_mark_inj in E; [subst n'|exact L|exact L'].
  unfold decode_array. rewrite at_eof, at_read_byte. cbn [bind]. rewrite P. reflexivity.
Qed.
Lemma value_says pre b rest v : bytes_ok b -> says b v -> ~ array_of_eight v -> decode_value (at_ pre (b ++ rest)) = Ok (v, at_ (pre ++ b) rest).
Proof.
  intros B H N8. destruct v as [p|vs].
  - cbn [says] in H. pose proof H as H'. apply says_payload in H'; [|exact B]. destruct H' as (m & s & n & f & -> & P & _). cbn [app].
    rewrite prim_value by (eapply not_array; eauto). change (m :: s ++ rest) with ((m :: s) ++ rest). now rewrite (prim_says _ _ _ _ B H).
  - cbn [array_of_eight] in N8. destruct H as (bs & ps & -> & F & L & ->). inversion B as [|? ? _ B']; subst.
    set (n := nlen (map VPrim ps)) in *. cbn [app]. rewrite (array_step _ _ _ n L eq_refl).
    destruct (array_marked _ (mark_in n L)) as (n' & L' & E & Le & _ & _). apply array_mark_inj in E; [subst n'|exact L|exact L'].
    assert (En : N.to_nat n = length ps) by (unfold n, nlen; rewrite map_length; lia). rewrite En.
    destruct (elements_say bs ps (vec_with_capacity (array_mark n)) (array_mark n) [] (pre ++ [array_mark n]) rest (concat_ok bs B') F (holds_new _)) as (vs' & E & Hv).
    { change (nlen (@nil value)) with 0. assert (nlen ps = n) by (unfold n, nlen; now rewrite map_length). specialize (Le N8). lia. }
    rewrite E. cbn [bind]. rewrite (holds_slice _ _ _ Hv). cbn [app]. now rewrite <- app_assoc.
Qed.
Lemma value_read pre tail v c : bytes_ok tail -> decode_value (at_ pre tail) = Ok (v, c) ->
  exists b rest, tail = b ++ rest /\ says b v /\ ~ array_of_eight v /\ c = at_ (pre ++ b) rest.
Proof.
  intros B. destruct tail as [|m t]; [unfold decode_value; rewrite at_eof; discriminate|].
  destruct (kind_of m) as [k|e|] eqn:K.
  - destruct (kind_markers m (ex_intro _ _ K)) as [I|I].
    + rewrite prim_value by (apply payload_in in I; destruct (payload m) eqn:P; [eapply not_array; eauto|now elim I]).
      intros H. apply bound_ok in H. destruct H as ([p c'] & D & H). injection H as <- <-. destruct (prim_read _ _ _ _ B D) as (b & rest & -> & S1 & ->).
      exists b, rest. split; [reflexivity|]. split; [exact S1|]. split; [exact (fun f => f)|reflexivity].
    + destruct (array_marked m I) as (n & L & -> & Le & L8 & _). rewrite (array_step _ _ _ n L eq_refl). inversion B as [|? ? _ B']; subst.
      intros H. apply bound_ok in H. destruct H as ([vs c'] & D & H). destruct (vec_as_slice vs) as [l|] eqn:Sl; [|discriminate H]. injection H as <- <-.
      destruct (elements_read _ _ _ _ _ _ _ _ B' (holds_new _) D) as (bs & ps & rest & Lp & -> & F & -> & Hv).
      rewrite (holds_slice _ _ _ Hv) in Sl. injection Sl as <-. cbn [app].
      assert (En : nlen (map VPrim ps) = n) by (unfold nlen; rewrite map_length; lia).
      exists (array_mark n :: concat bs), rest. split; [reflexivity|]. split; [|split].
      * exists bs, ps. split; [reflexivity|]. split; [exact F|]. rewrite En. auto.
      * cbn [array_of_eight]. rewrite En. intros E8. destruct Hv as (_ & _ & Hv & _). specialize (L8 E8). rewrite L8 in Hv. cbn [app] in Hv. lia.
      * now rewrite <- app_assoc.
  - rewrite value_step, K. unfold decode_primitive, peek_kind. rewrite at_peek. cbn [bind]. rewrite K. discriminate.
  - rewrite value_step, K. unfold decode_primitive, peek_kind. rewrite at_peek. cbn [bind]. rewrite K. discriminate.
Qed.
Lemma value_err pre tail : bytes_ok tail -> ((exists e, decode_value (at_ pre tail) = Err e) <-> cut_short tail).
Proof.
  intros B. destruct tail as [|m t].
  { unfold decode_value. rewrite at_eof. split; [|eauto]. intros _. exists [32], (VPrim PNone). split; [discriminate|]. split; [repeat constructor|reflexivity]. }
  assert (Pr : kind_of m <> Ok KArray -> ((exists e, decode_value (at_ pre (m :: t)) = Err e) <-> prim_cut (m :: t))).
  { intros N. rewrite prim_value by exact N. rewrite <- (prim_err pre (m :: t) B). destruct (decode_primitive _) as [[p c]|e|]; cbn [bind]; split; intros [e' H]; try discriminate H; eauto. }
  assert (Dn : {kind_of m = Ok KArray} + {kind_of m <> Ok KArray}) by (destruct (kind_of m) as [[]| |]; (left; reflexivity) || (right; discriminate)).
  destruct Dn as [K|K].
  - apply array_kind in K. destruct (array_marked m K) as (n & L & -> & Le & L8 & _). rewrite (array_step _ _ _ n L eq_refl). inversion B as [|? ? _ B']; subst.
    assert (Fits : nlen (@nil value) + N.of_nat (N.to_nat n) <= array_mark n + 1).
    { change (nlen (@nil value)) with 0. destruct (N.eq_dec n 8) as [->|N8]; [vm_compute; discriminate|]. specialize (Le N8). lia. }
    pose proof (elements_err (N.to_nat n) (vec_with_capacity (array_mark n)) (array_mark n) [] (pre ++ [array_mark n]) t B' (holds_new _) Fits) as El.
    split.
    + intros [e E]. destruct (decode_elements _ _ _) as [[vs c]|e'|] eqn:D; cbn [bind] in E; [destruct (vec_as_slice vs); discriminate E| |discriminate E].
      destruct (proj1 El (ex_intro _ e' eq_refl)) as (more & bs & ps & Nm & Bm & Lp & F & Ec).
      exists more, (VVec (map VPrim ps)). split; [exact Nm|]. split; [exact Bm|]. cbn [says app]. exists bs, ps.
      assert (En : nlen (map VPrim ps) = n) by (unfold nlen; rewrite map_length; lia). rewrite En, Ec. auto.
    + intros (more & v & Nm & Bm & H). destruct v as [p|vs].
      * exfalso. cbn [says] in H. apply says_payload in H; [|apply Forall_app; auto]. destruct H as (m' & s & k & f & E & P & _). injection E as <- _.
        now apply (not_array _ _ P), array_kind.
      * destruct H as (bs & ps & -> & F & L' & E). cbn [app] in E. injection E as Em Ec. apply array_mark_inj in Em; [|exact L|exact L'].
        destruct (proj2 El) as [e D]; [exists more, bs, ps; repeat split; auto; unfold nlen in Em; rewrite map_length in Em; lia|]. rewrite D. cbn [bind]. eauto.
  - rewrite Pr by exact K. split.
    + intros (more & p & Nm & Bm & H). exists more, (VPrim p). auto.
    + intros (more & [p|vs] & Nm & Bm & H); [exists more, p; auto|]. exfalso. destruct H as (bs & ps & _ & _ & L & E). cbn [app] in E. injection E as -> _.
      apply K. apply array_kind. now apply mark_in.
Qed.

(** Sequences and arguments. *)
Lemma says_nonempty b v : says b v -> b <> [].
Proof.
  destruct v as [[| |f|a|n|t z]|vs]; cbn [says says_prim]; [intros ->|intros ->|intros ->|intros [_ ->]|intros (s & _ & _ & ->)|intros (s & _ & _ & _ & _ & ->)|intros (bs & ps & _ & _ & _ & ->)]; discriminate.
Qed.
Lemma next_says pre b rest v : bytes_ok b -> says b v -> ~ array_of_eight v -> calldata_next (at_ pre (b ++ rest)) = Some (Some (v, at_ (pre ++ b) rest)).
Proof.
  intros B H N8. unfold calldata_next. rewrite at_eof. pose proof (says_nonempty b v H) as Ne. destruct b as [|x b]; [now elim Ne|]. cbn [app].
  change (x :: b ++ rest) with ((x :: b) ++ rest). now rewrite (value_says _ _ _ _ B H N8).
Qed.
Lemma next_read pre tail v c : bytes_ok tail -> calldata_next (at_ pre tail) = Some (Some (v, c)) ->
  exists b rest, tail = b ++ rest /\ says b v /\ ~ array_of_eight v /\ c = at_ (pre ++ b) rest.
Proof.
  intros B. unfold calldata_next. destruct (is_eof _); [discriminate|]. destruct (decode_value (at_ pre tail)) as [[v' c']| |] eqn:D; try discriminate.
  intros [= <- <-]. now apply value_read.
Qed.
Lemma values_exact n : forall pre tail vs c, bytes_ok tail ->
  (next_values n (at_ pre tail) = Some (vs, c) <->
   length vs = n /\ Forall (fun v => ~ array_of_eight v) vs /\ exists b rest, tail = b ++ rest /\ say_all b vs /\ c = at_ (pre ++ b) rest).
Proof.
  induction n as [|n IH]; intros pre tail vs c B; cbn [next_values].
  - split.
    + intros [= <- <-]. split; [reflexivity|]. split; [constructor|]. exists [], tail. split; [reflexivity|]. split; [exists []; split; [constructor|reflexivity]|now rewrite app_nil_r].
    + intros (L & _ & b & rest & -> & (bs & F & ->) & ->). destruct vs; [|discriminate L]. inversion F; subst. cbn. now rewrite app_nil_r.
  - split.
    + destruct (calldata_next (at_ pre tail)) as [[[v c1]|]|] eqn:D; cbn [obind]; [|discriminate..].
      destruct (next_read _ _ _ _ B D) as (b & rest & -> & S1 & N8 & ->). apply Forall_app in B. destruct B as [B1 B2].
      destruct (next_values n _) as [[vs' c2]|] eqn:E; cbn [obind]; [|discriminate]. intros [= <- <-].
      apply IH in E; [|exact B2]. destruct E as (L & F8 & b' & r' & -> & (bs & F & ->) & ->).
      split; [cbn; now rewrite L|]. split; [now constructor|]. exists (b ++ concat bs), r'. split; [now rewrite app_assoc|]. split; [|now rewrite app_assoc].
      exists (b :: bs). split; [now constructor|reflexivity].
    + intros (L & F8 & b & rest & -> & (bs & F & ->) & ->). destruct vs as [|v vs]; [discriminate L|]. inversion F as [|b1 ? bs' ? S1 F']; subst. inversion F8; subst.
      cbn [concat] in *. rewrite <- app_assoc in B. apply Forall_app in B. destruct B as [B1 B2]. rewrite <- app_assoc, (next_says pre b1 _ v B1) by assumption. cbn [obind].
      rewrite (proj2 (IH (pre ++ b1) (concat bs' ++ rest) vs (at_ (pre ++ b1 ++ concat bs') rest) B2)); [reflexivity|].
      split; [now injection L|]. split; [assumption|]. exists (concat bs'), rest. split; [reflexivity|]. split; [exists bs'; auto|now rewrite app_assoc].
Qed.
Lemma prim_is_typed t p : prim_ok p -> (prim_is t p = true <-> prim_typed t p).
Proof.
  intros O. unfold prim_typed. split.
  - intros H. split; [exact O|]. destruct t as [| | |t], p as [| |b|a|n|t' z]; try discriminate H; eauto; try (destruct t; discriminate H). destruct t, t'; try discriminate H; eauto.
  - intros [_ H]. destruct t as [| | |t]; destruct H as [x ->]; try reflexivity. destruct t; reflexivity.
Qed.
Lemma into_prims_exact t vs : forall ps, into_prims t vs = Some ps <-> vs = map VPrim ps /\ Forall (fun p => prim_is t p = true) ps.
Proof.
  induction vs as [|v vs IH]; intros ps; cbn [into_prims].
  - split; [intros [= <-]; split; [reflexivity|constructor]|]. intros [E _]. destruct ps; [reflexivity|discriminate E].
  - split.
    + destruct v as [p|]; cbn [into_prim]; [|discriminate]. destruct (prim_is t p) eqn:P; [|discriminate]. cbn [obind].
      destruct (into_prims t vs) as [ps'|]; [|discriminate]. cbn [obind]. intros [= <-]. destruct (proj1 (IH ps') eq_refl) as [-> F]. split; [reflexivity|now constructor].
    + intros [E F]. destruct ps as [|p ps]; [discriminate E|]. injection E as -> ->. inversion F as [|? ? P F']; subst. cbn [into_prim]. rewrite P. cbn [obind].
      now rewrite (proj2 (IH ps) (conj eq_refl F')).
Qed.
Lemma from_value_exact t v r : flat v -> (from_value t v = Some r <-> typed t r /\ rust_value r = v).
Proof.
  intros Fl. split; [|intros [T <-]; now apply from_value_typed].
  destruct t as [|t|t|t n]; cbn [from_value].
  - destruct v as [[]|]; try discriminate. intros [= <-]. split; [exact Logic.I|reflexivity].
  - destruct v as [p|]; [|discriminate]. cbn [into_prim]. destruct (prim_is t p) eqn:P; [|discriminate]. intros [= <-]. split; [|reflexivity]. now apply prim_is_typed.
  - assert (X : (let? p := into_prim t v in Some (ROption (Some p))) = Some r -> typed (YOption t) r /\ rust_value r = v).
    { destruct v as [p|]; [|discriminate]. cbn [into_prim]. destruct (prim_is t p) eqn:P; [|discriminate]. intros [= <-]. split; [|reflexivity]. now apply prim_is_typed. }
    destruct v as [[| |b|a|m|t' z]|vs]; try exact X. intros [= <-]. split; [exact Logic.I|reflexivity].
  - destruct v as [p|vs]; [discriminate|]. destruct (N.eqb_spec (nlen vs) n) as [En|]; [|discriminate]. cbn [ensure obind].
    destruct (into_prims t vs) as [ps|] eqn:E; [|discriminate]. cbn [obind]. intros [= <-]. apply into_prims_exact in E. destruct E as [-> F].
    destruct Fl as [L Fl]. assert (El : nlen (map VPrim ps) = nlen ps) by (unfold nlen; now rewrite map_length).
    split; [|reflexivity]. split; [congruence|]. split; [lia|]. clear -F Fl. induction F as [|p ps P F IH]; [constructor|].
    cbn [map] in Fl. apply Forall_cons_iff in Fl. destruct Fl as [(q & [= <-] & O) Fl]. constructor; [now apply prim_is_typed|auto].
Qed.
Lemma says_flat b v : bytes_ok b -> says b v -> flat v.
Proof.
  intros B H. assert (P : forall b p, bytes_ok b -> says_prim b p -> prim_ok p).
  { clear. intros b p B H. destruct p as [| |f|a|n|t z]; cbn [says_prim prim_ok] in *; auto.
    - destruct H as [L ->]. inversion B; subst. auto.
    - destruct H as (s & [_ L] & <- & ->). inversion B as [|? ? _ Bs]; subst. pose proof (be_value_bound s Bs). change (number_of s) with (be_value s).
      eapply N.lt_le_trans; [exact H|]. change (2 ^ 64) with (256 ^ 8). apply N.pow_le_mono_r; lia.
    - destruct H as (s & _ & _ & R & _). exact R. }
  destruct v as [p|vs]; cbn [says flat] in *; [eauto|]. destruct H as (bs & ps & -> & F & L & ->). split; [exact L|]. inversion B as [|? ? _ Bc]; subst.
  apply concat_ok in Bc. clear -P F Bc. induction F as [|b p bs ps S1 F IH]; [constructor|]. inversion Bc; subst. cbn [map]. constructor; eauto.
Qed.
Lemma from_values_exact ts : forall vs rs, Forall flat vs -> length vs = length ts ->
  (from_values ts vs = Some rs <-> Forall2 typed ts rs /\ map rust_value rs = vs).
Proof.
  induction ts as [|t ts IH]; intros [|v vs] rs F L; try discriminate L; cbn [from_values].
  - split; [intros [= <-]; split; [constructor|reflexivity]|]. intros [T _]. inversion T. reflexivity.
  - inversion F as [|? ? Fv F']; subst. injection L as L. split.
    + destruct (from_value t v) as [r|] eqn:E; [|discriminate]. cbn [obind]. destruct (from_values ts vs) as [rs'|] eqn:Es; [|discriminate]. cbn [obind]. intros [= <-].
      apply from_value_exact in E; [|exact Fv]. destruct E as [T <-]. apply IH in Es; [|exact F'|exact L]. destruct Es as [Ts <-]. split; [now constructor|reflexivity].
    + intros [T E]. inversion T as [|? r ? rs' T1 Ts]; subst. cbn [map] in *. injection E as <- <-. rewrite from_value_typed by exact T1. cbn [obind].
      now rewrite (proj2 (IH _ rs' F' L) (conj Ts eq_refl)).
Qed.
Lemma say_flat b vs : bytes_ok b -> say_all b vs -> Forall flat vs.
Proof.
  intros B (bs & F & ->). apply concat_ok in B. induction F as [|b v bs vs S1 F IH]; [constructor|]. inversion B; subst. constructor; [eapply says_flat; eauto|auto].
Qed.
(** What bytes say is determined by them. *)
Lemma prim_unique b1 b2 r1 r2 p1 p2 : bytes_ok (b1 ++ r1) -> says_prim b1 p1 -> says_prim b2 p2 -> b1 ++ r1 = b2 ++ r2 -> p1 = p2 /\ b1 = b2 /\ r1 = r2.
Proof.
  intros B S1 S2 E. assert (B2 : bytes_ok (b2 ++ r2)) by now rewrite <- E. apply Forall_app in B, B2.
  apply says_payload in S1; [|apply B]. apply says_payload in S2; [|apply B2].
  destruct S1 as (m1 & s1 & n1 & f1 & -> & P1 & L1 & ->). destruct S2 as (m2 & s2 & n2 & f2 & -> & P2 & L2 & ->).
  cbn [app] in E. injection E as <- E. rewrite P1 in P2. injection P2 as <- <-. apply app_eq_app in E.
  destruct E as (l & [[-> ->]|[-> ->]]); (destruct l; [rewrite ?app_nil_r in *; auto|]); exfalso; rewrite nlen_app, nlen_cons in *; lia.
Qed.
Lemma prims_unique bs1 : forall bs2 ps1 ps2 r1 r2, bytes_ok (concat bs1 ++ r1) -> Forall2 says_prim bs1 ps1 -> Forall2 says_prim bs2 ps2 -> length ps1 = length ps2 ->
  concat bs1 ++ r1 = concat bs2 ++ r2 -> ps1 = ps2 /\ bs1 = bs2 /\ r1 = r2.
Proof.
  induction bs1 as [|b1 bs1 IH]; intros bs2 ps1 ps2 r1 r2 B F1 F2 L E; inversion F1; subst; inversion F2; subst; try discriminate L; [auto|].
  cbn [concat] in *. rewrite <- !app_assoc in *. destruct (prim_unique _ _ _ _ _ _ B ltac:(eassumption) ltac:(eassumption) E) as (-> & -> & E').
  apply Forall_app in B. destruct (IH _ _ _ _ _ (proj2 B) ltac:(eassumption) ltac:(eassumption) ltac:(now injection L) E') as (-> & -> & ->). auto.
Qed.
Lemma says_unique b1 b2 r1 r2 v1 v2 : bytes_ok (b1 ++ r1) -> says b1 v1 -> says b2 v2 -> b1 ++ r1 = b2 ++ r2 -> v1 = v2 /\ b1 = b2.
Proof.
  intros B S1 S2 E. assert (B2 : bytes_ok (b2 ++ r2)) by now rewrite <- E.
  assert (Mix : forall b b' r r' p vs, bytes_ok (b ++ r) -> says b (VPrim p) -> says b' (VVec vs) -> b ++ r = b' ++ r' -> False).
  { clear. intros b b' r r' p vs B S1 S2 E. apply Forall_app in B. apply says_payload in S1; [|apply B]. destruct S1 as (m & s & n & f & -> & P & _).
    destruct S2 as (bs & ps & _ & _ & L & ->). cbn [app] in E. injection E as -> _. apply (not_array _ _ P), array_kind. now apply mark_in. }
  destruct v1 as [p1|vs1], v2 as [p2|vs2].
  - destruct (prim_unique _ _ _ _ _ _ B S1 S2 E) as (-> & -> & _). auto.
  - exfalso. exact (Mix _ _ _ _ _ _ B S1 S2 E).
  - exfalso. exact (Mix _ _ _ _ _ _ B2 S2 S1 (eq_sym E)).
  - destruct S1 as (bs1 & ps1 & -> & F1 & L1 & ->). destruct S2 as (bs2 & ps2 & -> & F2 & L2 & ->). cbn [app] in *. injection E as Em E.
    apply array_mark_inj in Em; [|assumption..]. inversion B as [|? ? _ B']; subst.
    destruct (prims_unique bs1 bs2 ps1 ps2 r1 r2 B' F1 F2 ltac:(unfold nlen in Em; rewrite !map_length in Em; lia) E) as (-> & -> & _). auto.
Qed.
(** What the encoder writes. *)
Lemma says_prim_format p : prim_ok p -> says_prim (prim_format p) p.
Proof.
  destruct p as [| |f|a|n|t z]; cbn [prim_ok says_prim prim_format]; intros O; try reflexivity.
  - split; [apply O|reflexivity].
  - exists (number n). rewrite number_length. split; [pose proof (width_8 n O); pose proof (width_pos n); lia|]. split; [change (number_of (number n)) with (be_value (number n)); apply number_value|reflexivity].
  - exists (number (complement t z)). rewrite number_length. pose proof (width_ity t z) as W.
    split; [lia|]. split; [|split; [exact O|split; [change (number_of ?x) with (be_value x); symmetry; apply number_value|reflexivity]]].
    destruct W as [_ W]. destruct t; match type of W with _ <= ?x => let y := eval vm_compute in x in change x with y in W end; cbn [int_bits]; lia.
Qed.
Lemma says_format v : flat v -> says (format v) v.
Proof.
  destruct v as [p|vs]; cbn [flat says format]; [apply says_prim_format|]. intros [L F].
  assert (X : exists ps, vs = map VPrim ps /\ Forall prim_ok ps).
  { clear L. induction F as [|v vs (p & -> & O) F (ps & -> & Fp)]; [exists []; split; [reflexivity|constructor]|]. exists (p :: ps). split; [reflexivity|now constructor]. }
  destruct X as (ps & -> & Fp). exists (map prim_format ps), ps. split; [reflexivity|]. split; [|split; [exact L|]].
  - clear -Fp. induction Fp; cbn [map]; constructor; [now apply says_prim_format|assumption].
  - f_equal. rewrite flat_map_prims. clear. induction ps as [|p ps IH]; [reflexivity|]. cbn [map concat flat_map]. now rewrite IH.
Qed.
