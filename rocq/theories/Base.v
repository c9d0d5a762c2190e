(** Shared vocabulary of the model: bytes, Rust outcomes, fixed-width integers. *)
From Coq Require Import List NArith ZArith Lia Bool.
From Coq Require Import ZifyBool ZifyNat ZifyN.
Import ListNotations.
Open Scope N_scope.

(** A byte is an [N] below 256; Rust's [u8] makes the bound a type invariant, here it
    is the predicate [bytes_ok]. *)
Definition bytes := list N.
Definition is_byte (b : N) : Prop := b < 256.
Definition bytes_ok (bs : bytes) : Prop := Forall is_byte bs.

(** Result of a Rust call that may return [Err] or panic.  [Panic] stands for any
    panic: failed [assert!], [unwrap], out-of-bounds access, [todo!], ... *)
Inductive outcome (E A : Type) : Type :=
| Ok (a : A)
| Err (e : E)
| Panic.
Arguments Ok {E A} _.
Arguments Err {E A} _.
Arguments Panic {E A}.

Definition bind {E A B} (m : outcome E A) (k : A -> outcome E B) : outcome E B :=
  match m with
  | Ok a => k a
  | Err e => Err e
  | Panic => Panic
  end.

Definition obind {A B} (m : option A) (k : A -> option B) : option B :=
  match m with
  | Some a => k a
  | None => None
  end.

Notation "'let*' p ':=' m 'in' k" := (bind m (fun p => k))
  (at level 200, p strict pattern, m at level 100, k at level 200).
Notation "'let?' p ':=' m 'in' k" := (obind m (fun p => k))
  (at level 200, p strict pattern, m at level 100, k at level 200).

(** Length as an [N], used for every comparison with a Rust [usize] constant. *)
Definition nlen {A} (l : list A) : N := N.of_nat (length l).

(** [to_be_bytes] of a [w]-byte unsigned integer. *)
Fixpoint be_bytes (w : nat) (n : N) : bytes :=
  match w with
  | O => []
  | S w' => (n / 256 ^ N.of_nat w') mod 256 :: be_bytes w' n
  end.

(** [from_be_bytes]. *)
Definition be_value (bs : bytes) : N := fold_left (fun acc b => acc * 256 + b) bs 0.

(** [to_le_bytes] / [from_le_bytes]. *)
Definition le_bytes (w : nat) (n : N) : bytes := rev (be_bytes w n).
Definition le_value (bs : bytes) : N := be_value (rev bs).

Definition u8_max : N := 255.
Definition u16_max : N := 65535.
Definition u32_max : N := 4294967295.
Definition u64_max : N := 18446744073709551615.
Definition u128_max : N := 340282366920938463463374607431768211455.

(* ------------------------------------------------------------------------- *)
(** * Lemmas about bytes *)

Lemma nlen_app {A} (a b : list A) : nlen (a ++ b) = nlen a + nlen b.
Proof. unfold nlen. rewrite app_length. lia. Qed.

Lemma nlen_cons {A} (a : A) (b : list A) : nlen (a :: b) = 1 + nlen b.
Proof. unfold nlen. simpl length. lia. Qed.

Lemma nlen_nil {A} : nlen (@nil A) = 0.
Proof. reflexivity. Qed.

Lemma nlen_length {A} (a : list A) n : nlen a = N.of_nat n <-> length a = n.
Proof. unfold nlen. lia. Qed.

Lemma be_bytes_length w n : length (be_bytes w n) = w.
Proof. induction w; simpl; congruence. Qed.

Lemma be_bytes_ok w n : bytes_ok (be_bytes w n).
Proof.
  induction w; simpl; constructor; auto.
  unfold is_byte. apply N.mod_lt. lia.
Qed.

Lemma be_value_acc bs acc :
  fold_left (fun a b => a * 256 + b) bs acc = acc * 256 ^ nlen bs + be_value bs.
Proof.
  unfold be_value. revert acc.
  induction bs as [|b bs IH]; intros acc.
  - rewrite nlen_nil. simpl fold_left. rewrite N.pow_0_r. lia.
  - cbn [fold_left]. rewrite IH. rewrite (IH (0 * 256 + b)).
    rewrite nlen_cons. rewrite N.pow_add_r. change (256 ^ 1) with 256. nia.
Qed.

Lemma be_value_cons b bs : be_value (b :: bs) = b * 256 ^ nlen bs + be_value bs.
Proof.
  unfold be_value at 1. cbn [fold_left]. rewrite be_value_acc. f_equal.
Qed.

Lemma be_value_nil : be_value [] = 0.
Proof. reflexivity. Qed.

Lemma pow256_pos w : 0 < 256 ^ w.
Proof. apply N.neq_0_lt_0. apply N.pow_nonzero. lia. Qed.

Lemma be_value_bound bs : bytes_ok bs -> be_value bs < 256 ^ nlen bs.
Proof.
  induction 1 as [|b bs Hb Hbs IH].
  - vm_compute. reflexivity.
  - rewrite be_value_cons, nlen_cons, N.pow_add_r. change (256 ^ 1) with 256.
    unfold is_byte in Hb. nia.
Qed.

Lemma be_value_be_bytes w n : be_value (be_bytes w n) = n mod 256 ^ N.of_nat w.
Proof.
  induction w.
  - simpl be_bytes. rewrite be_value_nil. rewrite N.pow_0_r. now rewrite N.mod_1_r.
  - cbn [be_bytes]. rewrite be_value_cons, IHw.
    unfold nlen. rewrite be_bytes_length.
    replace (N.of_nat (S w)) with (N.of_nat w + 1) by lia.
    rewrite N.pow_add_r. change (256 ^ 1) with 256.
    rewrite N.mod_mul_r; [lia| |lia].
    pose proof (pow256_pos (N.of_nat w)). lia.
Qed.

Lemma be_value_be_bytes_small w n : n < 256 ^ N.of_nat w -> be_value (be_bytes w n) = n.
Proof. intros. rewrite be_value_be_bytes. now apply N.mod_small. Qed.

Lemma be_bytes_mod w n m : N.of_nat w <= m -> be_bytes w (n mod 256 ^ m) = be_bytes w n.
Proof.
  revert n. induction w; intros n Hm; cbn [be_bytes]; auto.
  rewrite IHw by lia. f_equal.
  replace m with (N.of_nat w + (m - N.of_nat w)) by lia.
  rewrite N.pow_add_r.
  pose proof (pow256_pos (N.of_nat w)).
  pose proof (pow256_pos (m - N.of_nat w)).
  rewrite N.mod_mul_r by lia.
  rewrite (N.mul_comm (256 ^ N.of_nat w)), N.div_add by lia.
  rewrite (N.div_small (n mod 256 ^ N.of_nat w)) by (apply N.mod_lt; lia).
  rewrite N.add_0_l.
  replace (m - N.of_nat w) with (1 + (m - N.of_nat w - 1)) by lia.
  rewrite N.pow_add_r. change (256 ^ 1) with 256.
  pose proof (pow256_pos (m - N.of_nat w - 1)).
  rewrite N.mod_mul_r by lia.
  rewrite N.mul_comm, N.mod_add by lia.
  apply N.mod_mod. lia.
Qed.

Lemma be_bytes_be_value bs : bytes_ok bs -> be_bytes (length bs) (be_value bs) = bs.
Proof.
  induction 1 as [|b bs Hb Hbs IH]; auto.
  cbn [length be_bytes]. rewrite be_value_cons.
  pose proof (be_value_bound bs Hbs). pose proof (pow256_pos (nlen bs)).
  f_equal.
  - fold (nlen bs). rewrite N.div_add_l by lia.
    rewrite (N.div_small (be_value bs)) by lia. rewrite N.add_0_r.
    apply N.mod_small. exact Hb.
  - transitivity (be_bytes (length bs) (be_value bs)); [|exact IH].
    rewrite <- (be_bytes_mod (length bs) _ (nlen bs)) by (unfold nlen; lia).
    rewrite (N.add_comm (b * _)), N.mod_add by lia.
    now rewrite N.mod_small.
Qed.

Lemma be_bytes_inj w n m :
  n < 256 ^ N.of_nat w -> m < 256 ^ N.of_nat w -> be_bytes w n = be_bytes w m -> n = m.
Proof.
  intros Hn Hm H.
  rewrite <- (be_value_be_bytes_small w n Hn), H. now apply be_value_be_bytes_small.
Qed.

Lemma le_bytes_length w n : length (le_bytes w n) = w.
Proof. unfold le_bytes. now rewrite rev_length, be_bytes_length. Qed.

Lemma le_bytes_ok w n : bytes_ok (le_bytes w n).
Proof. unfold le_bytes, bytes_ok. apply Forall_rev. apply be_bytes_ok. Qed.

Lemma le_value_le_bytes w n : le_value (le_bytes w n) = n mod 256 ^ N.of_nat w.
Proof. unfold le_value, le_bytes. rewrite rev_involutive. apply be_value_be_bytes. Qed.

Lemma le_bytes_le_value bs : bytes_ok bs -> le_bytes (length bs) (le_value bs) = bs.
Proof.
  intros H. unfold le_bytes, le_value.
  rewrite <- (rev_length bs). rewrite be_bytes_be_value.
  - apply rev_involutive.
  - now apply Forall_rev.
Qed.

Lemma bytes_ok_app a b : bytes_ok (a ++ b) <-> bytes_ok a /\ bytes_ok b.
Proof. apply Forall_app. Qed.

Lemma bytes_ok_cons a b : bytes_ok (a :: b) <-> is_byte a /\ bytes_ok b.
Proof. apply Forall_cons_iff. Qed.

Lemma bytes_ok_nil : bytes_ok [].
Proof. constructor. Qed.

Lemma app_cancel_l {A} (a b c d : list A) : length a = length c -> a ++ b = c ++ d -> a = c /\ b = d.
Proof.
  revert c. induction a; destruct c; simpl; intros; try discriminate; auto.
  injection H0 as -> H0. injection H as H.
  destruct (IHa _ H H0) as [-> ->]. auto.
Qed.

(** [injection] would reduce the encoder; this does not. *)
Lemma Some_inj {A} (a b : A) : Some a = Some b -> a = b.
Proof. now intros [= ->]. Qed.

Lemma nth_error_ext {A} (a b : list A) : (forall i, nth_error a i = nth_error b i) -> a = b.
Proof.
  revert b. induction a as [|x a IH]; intros [|y b] H; auto.
  - specialize (H O). discriminate.
  - specialize (H O). discriminate.
  - pose proof (H O) as H0. injection H0 as ->. f_equal. apply IH. intros i. exact (H (S i)).
Qed.

(** Decision procedure used by the satisfiability examples. *)
Definition bytes_okb (bs : bytes) : bool := forallb (fun b => b <? 256) bs.
Lemma bytes_okb_ok bs : bytes_okb bs = true -> bytes_ok bs.
Proof.
  intros H. apply Forall_forall. intros b Hb. unfold bytes_okb in H.
  rewrite forallb_forall in H. apply N.ltb_lt. auto.
Qed.
