(** Text renderings used by the code: upper-case hexadecimal ([hex::encode_upper]) and
    decimal ([Display] for unsigned integers), with their inverses on well-formed text. *)
From Coq Require Import String Ascii.
From Coq Require Import List NArith ZArith Lia Bool.
From Coq Require Import ZifyBool ZifyNat ZifyN.
From Verif Require Import Base.
Import ListNotations.
Open Scope N_scope.

(** Bytes of an ASCII literal. *)
Fixpoint txt (s : string) : bytes :=
  match s with
  | EmptyString => []
  | String c s' => N_of_ascii c :: txt s'
  end.

(** ** Hexadecimal *)
Definition hex_digit (d : N) : N := if d <? 10 then 48 + d else 55 + d.
Definition hex_byte (b : N) : bytes := [hex_digit (b / 16); hex_digit (b mod 16)].
(** hex::encode_upper *)
Definition hex_upper (bs : bytes) : bytes := flat_map hex_byte bs.

(** hex::decode: digits of either case. *)
Definition unhex_digit (c : N) : option N :=
  if (48 <=? c) && (c <=? 57) then Some (c - 48)
  else if (65 <=? c) && (c <=? 70) then Some (c - 55)
  else if (97 <=? c) && (c <=? 102) then Some (c - 87)
  else None.
Fixpoint unhex (s : bytes) : option bytes :=
  match s with
  | [] => Some []
  | [_] => None
  | a :: b :: s' =>
      let? x := unhex_digit a in
      let? y := unhex_digit b in
      let? r := unhex s' in
      Some (16 * x + y :: r)
  end.

Lemma unhex_hex_digit d : d < 16 -> unhex_digit (hex_digit d) = Some d.
Proof.
  intros H. unfold hex_digit, unhex_digit. destruct (N.ltb_spec d 10).
  - replace ((48 <=? 48 + d) && (48 + d <=? 57)) with true by lia. f_equal. lia.
  - replace ((48 <=? 55 + d) && (55 + d <=? 57)) with false by lia.
    replace ((65 <=? 55 + d) && (55 + d <=? 70)) with true by lia. f_equal. lia.
Qed.

Lemma unhex_hex_upper bs : bytes_ok bs -> unhex (hex_upper bs) = Some bs.
Proof.
  induction 1 as [|b bs Hb _ IH]; auto.
  unfold hex_upper in *. cbn [flat_map hex_byte app unhex]. unfold is_byte in Hb.
  rewrite !unhex_hex_digit, IH.
  - cbn [obind]. f_equal. f_equal. rewrite <- N.div_mod; lia.
  - apply N.mod_lt. lia.
  - apply N.div_lt_upper_bound; lia.
Qed.

Lemma hex_upper_length bs : length (hex_upper bs) = (2 * length bs)%nat.
Proof. unfold hex_upper. induction bs; cbn [flat_map]; auto. rewrite app_length, IHbs. cbn. lia. Qed.

Lemma hex_upper_inj a b : bytes_ok a -> bytes_ok b -> hex_upper a = hex_upper b -> a = b.
Proof.
  intros Ha Hb H. apply unhex_hex_upper in Ha, Hb. rewrite H in Ha. congruence.
Qed.

(** ** Decimal *)
Fixpoint digits (fuel : nat) (n : N) : list N :=
  match fuel with
  | O => []
  | S f => if n <? 10 then [n] else digits f (n / 10) ++ [n mod 10]
  end.
(** [Display] of an unsigned integer. *)
Definition decimal (n : N) : bytes := map (fun d => 48 + d) (digits (S (N.size_nat n)) n).

Definition digits_value (ds : list N) : N := fold_left (fun acc d => acc * 10 + d) ds 0.

Lemma digits_value_snoc ds d : digits_value (ds ++ [d]) = digits_value ds * 10 + d.
Proof. unfold digits_value. rewrite fold_left_app. reflexivity. Qed.

(** A numeral: decimal digits, no leading zero unless it is just "0". *)
Definition canonical_numeral (ds : list N) : Prop :=
  ds <> [] /\ Forall (fun d => d < 10) ds /\ (hd 0 ds = 0 -> ds = [0]).

Lemma digits_spec fuel n : n < 2 ^ N.of_nat fuel ->
  digits_value (digits (S fuel) n) = n /\ canonical_numeral (digits (S fuel) n)
  /\ (n <> 0 -> hd 0 (digits (S fuel) n) <> 0).
Proof.
  revert n. induction fuel as [|fuel IH]; intros n Hn.
  - assert (n = 0) by (cbn in Hn; lia). subst. cbn. repeat split; try discriminate; auto.
  - cbn [digits]. destruct (N.ltb_spec n 10).
    + unfold digits_value. cbn. split; [lia|]. split; [|lia].
      repeat split; try discriminate. { repeat constructor; lia. } cbn. intros E0. now rewrite E0.
    + assert (Hq : n / 10 < 2 ^ N.of_nat fuel).
      { apply N.div_lt_upper_bound; [lia|]. rewrite Nat2N.inj_succ, N.pow_succ_r' in Hn. lia. }
      assert (Hq0 : n / 10 <> 0).
      { intros E. apply N.div_small_iff in E; lia. }
      destruct (IH _ Hq) as (E & (C1 & C2 & C3) & C4). cbn [digits] in *.
      set (ds := if n / 10 <? 10 then [n / 10] else digits fuel (n / 10 / 10) ++ [(n / 10) mod 10]) in *.
      rewrite digits_value_snoc, E.
      assert (Hd : hd 0 (ds ++ [n mod 10]) = hd 0 ds) by (destruct ds; [contradiction|reflexivity]).
      split; [|split; [split; [|split]|]].
      * rewrite N.mul_comm. symmetry. apply N.div_mod. lia.
      * destruct ds; discriminate.
      * apply Forall_app. split; auto. repeat constructor. apply N.mod_lt. lia.
      * rewrite Hd. intros E0. exfalso. exact (C4 Hq0 E0).
      * rewrite Hd. auto.
Qed.

Lemma size_nat_gt n : n < 2 ^ N.of_nat (N.size_nat n).
Proof.
  destruct n as [|p]; [reflexivity|]. cbn [N.size_nat].
  pose proof (Pos.size_gt p).
  assert (Pos.size_nat p = Pos.to_nat (Pos.size p)) as ->.
  { clear. induction p; cbn; try rewrite IHp; try rewrite Pos2Nat.inj_succ; auto. }
  rewrite positive_nat_N. change (2 ^ N.pos (Pos.size p)) with (N.pos (2 ^ Pos.size p)).
  lia.
Qed.

Lemma decimal_value n : digits_value (map (fun c => c - 48) (decimal n)) = n.
Proof.
  unfold decimal. rewrite map_map. rewrite map_ext with (g := fun d => d) by (intros; lia).
  rewrite map_id. apply digits_spec. apply size_nat_gt.
Qed.

Lemma decimal_canonical n : canonical_numeral (map (fun c => c - 48) (decimal n)).
Proof.
  unfold decimal. rewrite map_map. rewrite map_ext with (g := fun d => d) by (intros; lia).
  rewrite map_id. apply digits_spec. apply size_nat_gt.
Qed.

Lemma decimal_inj a b : decimal a = decimal b -> a = b.
Proof. intros H. rewrite <- (decimal_value a), <- (decimal_value b). now rewrite H. Qed.
