(** Proofs about the JSON interface. *)
From Coq Require Import String List NArith ZArith Arith Bool Lia ZifyBool ZifyNat ZifyN.
From Verif Require Import Base Text SdkModel SdkSpec SdkProofs AbiModel AbiSpec AbiProofs CodecModel CodecSpec CodecProofs
  ReceiptModel ReceiptSpec ReceiptProofs JsonModel JsonSpec.
Import ListNotations.
Open Scope list_scope.
Open Scope N_scope.

(* ------------------------------------------------------------------------- *)
(** * Hexadecimal *)

Lemma unhex_digit_value c d : unhex_digit c = Some d <-> digit_value c d.
Proof.
  unfold unhex_digit, digit_value. split.
  - destruct ((48 <=? c) && (c <=? 57)) eqn:A; [intros [= <-]; lia|].
    destruct ((65 <=? c) && (c <=? 70)) eqn:B; [intros [= <-]; lia|].
    destruct ((97 <=? c) && (c <=? 102)) eqn:C; [intros [= <-]; lia|discriminate].
  - intros [[A ->]|[[A ->]|[A ->]]].
    + now replace ((48 <=? c) && (c <=? 57)) with true by lia.
    + replace ((48 <=? c) && (c <=? 57)) with false by lia. replace ((65 <=? c) && (c <=? 70)) with true by lia. f_equal. lia.
    + replace ((48 <=? c) && (c <=? 57)) with false by lia. replace ((65 <=? c) && (c <=? 70)) with false by lia.
      replace ((97 <=? c) && (c <=? 102)) with true by lia. f_equal. lia.
Qed.
Lemma digit_value_16 c d : digit_value c d -> d < 16.
Proof. unfold digit_value. lia. Qed.
Lemma pair_ind {A} (P : list A -> Prop) : P [] -> (forall x, P [x]) -> (forall x y l, P l -> P (x :: y :: l)) -> forall l, P l.
Proof.
  intros P0 P1 P2. refine (fix go (l : list A) : P l := _). destruct l as [|x [|y l]]; [exact P0|apply P1|apply P2, go].
Qed.
Lemma unhex_spelled s : forall bs, unhex s = Some bs <-> spelled s bs.
Proof.
  induction s as [|x|x y s IH] using pair_ind; intros bs.
  - cbn. destruct bs; split; intros H; try discriminate H; try contradiction H; auto.
  - cbn. destruct bs; split; intros H; try discriminate H; contradiction H.
  - cbn [unhex spelled]. destruct bs as [|b bs].
    + split; [|contradiction]. destruct (unhex_digit x); [|discriminate]. cbn [obind]. destruct (unhex_digit y); [|discriminate].
      cbn [obind]. destruct (unhex s); discriminate.
    + split.
      * destruct (unhex_digit x) as [h|] eqn:Eh; [|discriminate]. cbn [obind]. destruct (unhex_digit y) as [l|] eqn:El; [|discriminate].
        cbn [obind]. destruct (unhex s) as [r|] eqn:Er; [|discriminate]. cbn [obind]. intros [= <- <-]. split; [|now apply IH].
        exists h, l. apply unhex_digit_value in Eh, El. auto.
      * intros [(h & l & Eh & El & ->) S]. apply unhex_digit_value in Eh, El. rewrite Eh, El. cbn [obind]. apply IH in S. now rewrite S.
Qed.
Lemma spelled_ok s : forall bs, spelled s bs -> bytes_ok bs.
Proof.
  induction s as [|x|x y s IH] using pair_ind; intros [|b bs] H; try contradiction H; [constructor|].
  destruct H as [(h & l & Eh & El & ->) S]. constructor; [|now apply IH].
  apply digit_value_16 in Eh, El. unfold is_byte. lia.
Qed.
Lemma spelled_upper bs : bytes_ok bs -> spelled (hex_upper bs) bs.
Proof. intros B. apply unhex_spelled. now apply unhex_hex_upper. Qed.
Lemma hex_digit_upper d : d < 16 -> 48 <= hex_digit d <= 57 \/ 65 <= hex_digit d <= 70.
Proof. intros L. unfold hex_digit. destruct (N.ltb_spec d 10); lia. Qed.
Lemma hex_upper_case bs : bytes_ok bs -> upper_case (hex_upper bs).
Proof.
  induction 1 as [|b bs B _ IH]; [constructor|]. unfold hex_upper in *. cbn [flat_map hex_byte app]. unfold is_byte in B.
  constructor; [apply hex_digit_upper, N.div_lt_upper_bound; lia|]. constructor; [apply hex_digit_upper, N.mod_lt; lia|exact IH].
Qed.
Lemma digit_upper c d : digit_value c d -> 48 <= c <= 57 \/ 65 <= c <= 70 -> hex_digit d = c.
Proof. unfold digit_value, hex_digit. intros V U. destruct (N.ltb_spec d 10); lia. Qed.
(** Upper-case text is determined by the bytes. *)
Lemma spelled_unique s : forall bs, upper_case s -> spelled s bs -> s = hex_upper bs.
Proof.
  induction s as [|x|x y s IH] using pair_ind; intros [|b bs] U H; try contradiction H; [reflexivity|].
  destruct H as [(h & l & Eh & El & ->) S]. apply Forall_cons_iff in U. destruct U as [Ux U]. apply Forall_cons_iff in U. destruct U as [Uy U].
  unfold hex_upper in *. cbn [flat_map hex_byte app]. rewrite <- (IH bs U S).
  pose proof (digit_value_16 _ _ Eh). pose proof (digit_value_16 _ _ El).
  replace ((16 * h + l) / 16) with h by (apply (N.div_unique _ 16 _ l); lia).
  replace ((16 * h + l) mod 16) with l by (apply (N.mod_unique _ 16 h l); lia).
  now rewrite (digit_upper x h Eh Ux), (digit_upper y l El Uy).
Qed.
Lemma address_spec j a : address_of_json j = Some a <-> exists s, j = JStr s /\ spelled s a /\ length a = 20%nat.
Proof.
  unfold address_of_json, hex_of_json. split.
  - destruct j as [| | | |s| |]; cbn [obind]; try discriminate. destruct (unhex s) as [bs|] eqn:E; [|discriminate]. cbn [obind].
    destruct (N.eqb_spec (nlen bs) 20) as [L|]; [|discriminate]. intros [= <-]. exists s. split; [reflexivity|]. split; [now apply unhex_spelled|].
    unfold nlen in L. lia.
  - intros (s & -> & S & L). apply unhex_spelled in S. rewrite S. cbn [obind]. unfold nlen. rewrite L. reflexivity.
Qed.

(* ------------------------------------------------------------------------- *)
(** * Fields *)

Lemma get_field_ok {A} (f : json -> option A) j name a :
  get_field f j name = Ok a <-> exists v, field name j v /\ f v = Some a.
Proof.
  unfold get_field, field. split.
  - destruct j as [| | | | | |fields]; try discriminate. destruct (assoc (txt name) fields) as [v|] eqn:E; [|discriminate].
    destruct (f v) as [a'|] eqn:F; [|discriminate]. intros [= <-]. exists v. split; [eauto|exact F].
  - intros (v & (fields & -> & E) & F). now rewrite E, F.
Qed.
Lemma get_field_err {A} (f : json -> option A) j name :
  (exists a, get_field f j name = Ok a) \/ (exists e, get_field f j name = Err e).
Proof.
  unfold get_field. destruct j as [| | | | | |fields]; eauto. destruct (assoc (txt name) fields) as [v|]; eauto. destruct (f v); eauto.
Qed.
Lemma field_fun name j v v' : field name j v -> field name j v' -> v = v'.
Proof. intros (f & -> & E) (f' & E1 & E2). injection E1 as <-. congruence. Qed.
Lemma all_some_spec {A B} (f : A -> option B) l : forall r, all_some f l = Some r <-> Forall2 (fun x y => f x = Some y) l r.
Proof.
  induction l as [|x l IH]; intros r; cbn [all_some].
  - split; [intros [= <-]; constructor|intros H; inversion H; reflexivity].
  - split.
    + destruct (f x) as [y|] eqn:E; [|discriminate]. cbn [obind]. destruct (all_some f l) as [ys|] eqn:E'; [|discriminate].
      cbn [obind]. intros [= <-]. constructor; [exact E|]. now apply IH.
    + intros H. inversion H as [|? y ? ys E F]; subst. rewrite E. cbn [obind]. apply IH in F. now rewrite F.
Qed.
Lemma all_some_id {A} (l : list A) : all_some Some l = Some l.
Proof. apply all_some_spec. induction l; constructor; auto. Qed.

(* ------------------------------------------------------------------------- *)
(** * Types *)

Lemma bytes_eqb_true a : forall b, bytes_eqb a b = true <-> a = b.
Proof.
  induction a as [|x a IH]; intros [|y b]; cbn [bytes_eqb]; split; intros H; try discriminate H; auto.
  - apply andb_true_iff in H. destruct H as [H1 H2]. apply N.eqb_eq in H1. apply IH in H2. congruence.
  - injection H as -> ->. rewrite N.eqb_refl. now apply IH.
Qed.
Lemma pty_of_name_spec s t : pty_of_name s = Some t <-> s = type_name t.
Proof.
  split.
  - intros H. apply find_some in H. destruct H as [_ H]. apply bytes_eqb_true in H. auto.
  - intros ->. destruct t as [| | |[]]; reflexivity.
Qed.
Lemma json_ind' (P : json -> Prop) : P JNull -> (forall b, P (JBool b)) -> (forall z, P (JNum z)) -> P JFloat -> (forall s, P (JStr s)) ->
  (forall l, Forall P l -> P (JArr l)) -> (forall f, Forall (fun kv => P (snd kv)) f -> P (JObj f)) -> forall j, P j.
Proof.
  intros H1 H2 H3 H4 H5 H6 H7. refine (fix go (j : json) : P j := _). destruct j as [|b|z| |s|l|f]; [apply H1|apply H2|apply H3|apply H4|apply H5| |].
  - apply H6. induction l as [|j l IH]; constructor; [apply go|exact IH].
  - apply H7. induction f as [|[k j] f IH]; constructor; [apply go|exact IH].
Qed.
Lemma spells_all ts : forall js,
  (fix all (ts : list tysig) (js : list json) : Prop :=
     match ts, js with [], [] => True | t :: ts', j :: js' => spells t j /\ all ts' js' | _, _ => False end) ts js
  <-> Forall2 (fun j t => spells t j) js ts.
Proof.
  induction ts as [|t ts IH]; intros [|j js]; split; intros H; try contradiction H; try (inversion H; fail); auto.
  - destruct H as [A B]. constructor; [exact A|]. now apply IH.
  - inversion H; subst. split; [assumption|]. now apply IH.
Qed.
Lemma sig_spec j : forall t, sig_of_json j = Some t <-> spells t j.
Proof.
  induction j as [|b|z| |s|l IH|f IH] using json_ind'; intros t.
  1-4: cbn [sig_of_json]; split; intros H; [discriminate H|]; destruct t as [t|ts]; cbn [spells] in H;
    [destruct H as [H|H]; discriminate H|destruct H as (js & H & _); discriminate H].
  - cbn [sig_of_json]. split.
    + destruct (pty_of_name s) as [t'|] eqn:E; [|discriminate]. cbn [obind]. intros [= <-]. apply pty_of_name_spec in E. subst. now left.
    + destruct t as [t|ts]; cbn [spells]; [|intros (js & H & _); discriminate H]. intros [H|H]; [|discriminate H]. injection H as ->.
      now rewrite (proj2 (pty_of_name_spec _ t) eq_refl).
  - assert (X : forall ts, all_some sig_of_json l = Some ts <-> Forall2 (fun j t => spells t j) l ts).
    { intros ts. rewrite all_some_spec. revert ts. induction IH as [|j l Hj Hl IHl]; intros ts.
      - split; intros H; inversion H; constructor.
      - split; intros H; inversion H; subst; constructor; try (apply Hj; assumption); apply IHl; assumption. }
    cbn [sig_of_json]. split.
    + destruct (all_some sig_of_json l) as [ts|] eqn:E; [|discriminate]. cbn [obind]. intros [= <-]. cbn [spells]. exists l. split; [reflexivity|].
      apply spells_all, X. exact eq_refl.
    + destruct t as [t|ts]; cbn [spells]; [intros [H|H]; discriminate H|]. intros (js & [= <-] & H). apply spells_all, X in H. now rewrite H.
  - split.
    + cbn [sig_of_json]. destruct f as [|[k []] [|]]; try discriminate. destruct (pty_of_name k) as [t'|] eqn:E; [|discriminate]. cbn [obind].
      intros [= <-]. apply pty_of_name_spec in E. subst. now right.
    + destruct t as [t|ts]; cbn [spells]; [|intros (js & H & _); discriminate H]. intros [H|H]; [discriminate H|]. injection H as ->.
      cbn [sig_of_json]. now rewrite (proj2 (pty_of_name_spec _ t) eq_refl).
Qed.
Lemma Forall2_swap {A B} (R : A -> B -> Prop) l : forall r, Forall2 R l r <-> Forall2 (fun y x => R x y) r l.
Proof. induction l as [|x l IH]; intros r; split; intros H; inversion H; subst; constructor; auto; now apply IH. Qed.
Lemma Forall2_iff {A B} (R S : A -> B -> Prop) : (forall x y, R x y <-> S x y) -> forall l r, Forall2 R l r <-> Forall2 S l r.
Proof. intros E l r. split; intros H; induction H; constructor; auto; now apply E. Qed.
Lemma Forall2_len {A B} (R : A -> B -> Prop) l r : Forall2 R l r -> length l = length r.
Proof. induction 1; cbn; congruence. Qed.
Lemma sigs_spec j ts : list_of_json sig_of_json j = Some ts <-> exists abi, j = JArr abi /\ Forall2 spells ts abi.
Proof.
  unfold list_of_json. destruct j as [| | | | |l|]; try (split; [discriminate|intros (abi & H & _); discriminate H]).
  rewrite all_some_spec. split.
  - intros H. exists l. split; [reflexivity|]. apply Forall2_swap. eapply Forall2_iff; [|exact H]. intros. symmetry. apply sig_spec.
  - intros (abi & [= <-] & H). apply Forall2_swap in H. eapply Forall2_iff; [|exact H]. intros. apply sig_spec.
Qed.
Lemma docs_spec j ds : list_of_json Some j = Some ds <-> j = JArr ds.
Proof.
  unfold list_of_json. destruct j as [| | | | |l|]; try (split; discriminate). rewrite all_some_id. split; [intros [= <-]|intros [= <-]]; reflexivity.
Qed.

(* ------------------------------------------------------------------------- *)
(** * Values *)

Lemma prim_value_spec j t p : sdk_value_from_json j t = Some p <-> prim_reads t j p.
Proof.
  assert (X : forall t, t <> U64 ->
    (let? z := as_i64 j in let? z := try_from_i64 t z in Some (PInt t z)) = Some p <-> prim_reads (YInt t) j p).
  { clear t. intros t Ne. unfold as_i64, try_from_i64, prim_reads, ity_min, ity_max. tables. split.
    - destruct j as [| |z| | | |]; cbn [obind]; try discriminate.
      destruct ((- 2 ^ 63 <=? z) && (z <? 2 ^ 63))%Z eqn:A; [|discriminate]. cbn [obind].
      match goal with |- context [if ?c then Some z else None] => destruct c eqn:B end; [|discriminate]. cbn [obind]. intros [= <-].
      split; [reflexivity|]. split; [reflexivity|]. destruct (ity_signed t); lia.
    - destruct p as [| | | | |t' z]; try contradiction. intros (-> & -> & R).
      replace ((- 2 ^ 63 <=? z) && (z <? 2 ^ 63))%Z with true.
      2:{ destruct t; cbn [ity_signed ity_bits] in R; try lia; contradiction. }
      cbn [obind]. match goal with |- context [if ?c then Some z else None] => replace c with true end; [reflexivity|].
      destruct (ity_signed t); lia. }
  destruct t as [| | |t].
  - cbn. unfold as_bool. destruct j; cbn [obind]; split; intros H; try discriminate H; try (destruct p; try contradiction H; discriminate H).
    + injection H as <-. reflexivity.
    + destruct p; try contradiction H. injection H as ->. reflexivity.
  - cbn [sdk_value_from_json prim_reads]. unfold as_u64. split.
    + destruct j as [| |z| | | |]; cbn [obind]; try discriminate.
      destruct ((0 <=? z) && (z <? 2 ^ 64))%Z eqn:A; [|discriminate]. cbn [obind]. intros [= <-]. split; [f_equal; lia|lia].
    + destruct p as [| | | |n|]; try contradiction. intros [-> L].
      replace ((0 <=? Z.of_N n) && (Z.of_N n <? 2 ^ 64))%Z with true by lia. cbn [obind]. f_equal. f_equal. lia.
  - cbn [sdk_value_from_json prim_reads]. split.
    + destruct (address_of_json j) as [a|] eqn:E; [|discriminate]. cbn [obind]. intros [= <-]. now apply address_spec.
    + destruct p as [| | |a| |]; try contradiction. intros H. apply address_spec in H. now rewrite H.
  - destruct t; try (apply X; discriminate).
    cbn [sdk_value_from_json prim_reads]. unfold as_u64. tables. cbn [ity_signed ity_bits]. split.
    + destruct j as [| |z| | | |]; cbn [obind]; try discriminate.
      destruct ((0 <=? z) && (z <? 2 ^ 64))%Z eqn:A; [|discriminate]. cbn [obind]. intros [= <-]. split; [reflexivity|]. split; [reflexivity|lia].
    + destruct p as [| | | | |t' z]; try contradiction. intros (-> & -> & L).
      replace ((0 <=? z) && (z <? 2 ^ 64))%Z with true by lia. reflexivity.
Qed.
Lemma prim_reads_typed t j p : prim_reads t j p -> prim_typed t p.
Proof.
  unfold prim_reads, prim_typed. destruct t as [| | |t], p as [| |b|a|n|t' z]; try contradiction.
  - intros _. split; [exact Logic.I|eauto].
  - intros [_ L]. split; [exact L|eauto].
  - intros (s & _ & S & L). split; [split; [eapply spelled_ok; exact S|exact L]|eauto].
  - intros (-> & _ & R). split; [exact R|eauto].
Qed.

Lemma sig_ind (P : tysig -> Prop) : (forall t, P (TPrim t)) -> (forall t, P t -> P (TArr [t])) ->
  (forall ts, length ts <> 1%nat -> P (TArr ts)) -> forall t, P t.
Proof.
  intros H1 H2 H3. refine (fix go (t : tysig) : P t := _). destruct t as [t|[|t [|t' ts]]].
  - apply H1.
  - apply H3. discriminate.
  - apply H2, go.
  - apply H3. discriminate.
Qed.
Lemma push_values_spec {A} (f : A -> jm value) (R : A -> value -> Prop) : (forall x v, f x = Ok v <-> R x v) ->
  forall l w cap pre, holds w cap pre -> forall vs,
  (exists w', push_values f l w = Ok w' /\ holds w' cap (pre ++ vs)) <-> Forall2 R l vs /\ nlen pre + nlen l <= cap.
Proof.
  intros S. induction l as [|x l IH]; intros w cap pre H vs; cbn [push_values].
  - change (nlen (@nil A)) with 0. split.
    + intros (w' & [= <-] & H'). pose proof (holds_slice _ _ _ H) as X. rewrite (holds_slice _ _ _ H') in X. injection X as X.
      assert (vs = []) as ->. { apply (app_inv_head pre). now rewrite app_nil_r. } split; [constructor|]. destruct H as (_ & _ & L & _). lia.
    + intros (F & _). inversion F; subst. exists w. rewrite app_nil_r. auto.
  - rewrite nlen_cons. split.
    + intros (w' & E & H'). destruct (f x) as [v|e|] eqn:Ef; try discriminate E. cbn [bind] in E.
      destruct (N.lt_ge_cases (nlen pre) cap) as [L|L].
      2:{ rewrite (holds_push_full w cap pre v H L) in E. discriminate E. }
      destruct (holds_push w cap pre v H L) as (w1 & E1 & H1). rewrite E1 in E. cbn [unwrap bind] in E.
      assert (exists ys, vs = v :: ys) as [ys ->].
      { (* the element is in front of what follows *)
        assert (G : forall l w1 w' pre1, holds w1 cap pre1 -> push_values f l w1 = Ok w' -> exists ys, holds w' cap (pre1 ++ ys)).
        { clear. induction l as [|x l IH]; intros w1 w' pre1 H1 E; cbn [push_values] in E.
          - injection E as <-. exists []. now rewrite app_nil_r.
          - destruct (f x) as [v|e|]; try discriminate E. cbn [bind] in E. destruct (vec_push w1 v) as [w2|] eqn:E1; [|discriminate E].
            cbn [unwrap bind] in E. destruct (N.lt_ge_cases (nlen pre1) cap) as [L|L].
            2:{ rewrite (holds_push_full w1 cap pre1 v H1 L) in E1. discriminate E1. }
            destruct (holds_push w1 cap pre1 v H1 L) as (w3 & E3 & H3). rewrite E1 in E3. injection E3 as <-.
            destruct (IH w2 w' _ H3 E) as [ys Hy]. exists (v :: ys). rewrite <- app_assoc in Hy. exact Hy. }
        destruct (G l w1 w' _ H1 E) as [ys Hy]. exists ys. pose proof (holds_slice _ _ _ H') as X. rewrite (holds_slice _ _ _ Hy) in X.
        injection X as X. rewrite <- app_assoc in X. apply app_inv_head in X. auto. }
      destruct (proj1 (IH w1 cap _ H1 ys)) as [F Le].
      { exists w'. split; [exact E|]. now rewrite <- app_assoc. }
      rewrite nlen_app in Le. change (nlen [v]) with 1 in Le. split; [|lia]. constructor; [now apply S|exact F].
    + intros (F & Le). inversion F as [|? v ? ys Rv F']; subst. apply S in Rv. rewrite Rv. cbn [bind].
      destruct (holds_push w cap pre v H) as (w1 & E1 & H1); [lia|]. rewrite E1. cbn [unwrap bind].
      destruct (proj2 (IH w1 cap _ H1 ys)) as (w' & E' & H').
      { split; [exact F'|]. rewrite nlen_app. change (nlen [v]) with 1. lia. }
      exists w'. split; [exact E'|]. now rewrite <- app_assoc in H'.
Qed.
Lemma push_values_holds {A} (f : A -> jm value) cap : forall l w1 w' pre1, holds w1 cap pre1 -> push_values f l w1 = Ok w' -> exists ys, holds w' cap (pre1 ++ ys).
Proof.
  induction l as [|x l IH]; intros w1 w' pre1 H1 E; cbn [push_values] in E.
  - injection E as <-. exists []. now rewrite app_nil_r.
  - destruct (f x) as [v|e|]; try discriminate E. cbn [bind] in E. destruct (vec_push w1 v) as [w2|] eqn:E1; [|discriminate E].
    cbn [unwrap bind] in E. destruct (N.lt_ge_cases (nlen pre1) cap) as [L|L].
    2:{ rewrite (holds_push_full w1 cap pre1 v H1 L) in E1. discriminate E1. }
    destruct (holds_push w1 cap pre1 v H1 L) as (w3 & E3 & H3). rewrite E1 in E3. injection E3 as <-.
    destruct (IH w2 w' _ H3 E) as [ys Hy]. exists (v :: ys). rewrite <- app_assoc in Hy. exact Hy.
Qed.
Lemma value_spec t : forall j v, value_of_json t j = Ok v <-> reads t j v.
Proof.
  induction t as [t|t IH|ts Ne] using sig_ind; intros j v.
  - cbn [value_of_json reads]. split.
    + destruct (sdk_value_from_json j t) as [p|] eqn:E; [|discriminate]. intros [= <-]. now apply prim_value_spec.
    + destruct v as [p|vs]; [|contradiction]. intros H. apply prim_value_spec in H. now rewrite H.
  - cbn [value_of_json reads]. split.
    + destruct j as [| | | | |l|]; try discriminate. intros E.
      destruct (push_values (value_of_json t) l (vec_with_capacity 10)) as [w|e|] eqn:Ep; try discriminate E. cbn [bind] in E.
      destruct (push_values_holds _ 10 l _ w [] (holds_new 10) Ep) as [ys H]. cbn [app] in H. rewrite (holds_slice _ _ _ H) in E.
      cbn [unwrap bind] in E. injection E as <-. exists l. split; [reflexivity|].
      destruct (proj1 (push_values_spec _ (reads t) IH l _ 10 [] (holds_new 10) ys)) as [F L].
      { exists w. split; [exact Ep|exact H]. }
      change (nlen (@nil value)) with 0 in L. split; [lia|exact F].
    + destruct v as [p|vs]; [contradiction|]. intros (js & -> & L & F).
      destruct (proj2 (push_values_spec _ (reads t) IH js _ 10 [] (holds_new 10) vs)) as (w & E & H).
      { split; [exact F|]. change (nlen (@nil value)) with 0. lia. }
      rewrite E. cbn [bind]. cbn [app] in H. rewrite (holds_slice _ _ _ H). reflexivity.
  - destruct ts as [|t [|t' ts]]; [| |].
    + cbn. split; [discriminate|destruct v; contradiction].
    + exfalso. now apply Ne.
    + cbn. split; [discriminate|destruct v; contradiction].
Qed.
Lemma sum_sizes_ok {A} (f : A -> jm N) l : Forall (fun x => exists n, f x = Ok n) l -> exists n, sum_sizes f l = Ok n.
Proof.
  induction 1 as [|x l (n & E) _ (m & IH)]; cbn [sum_sizes]; [eauto|]. rewrite E, IH. cbn [bind]. eauto.
Qed.
(** A value that can be read is written in its format, within the announced size. *)
Lemma reads_size t : forall j v, reads t j v ->
  appends (encode_value v) (format v) /\ exists n, value_byte_size t j = Ok n /\ nlen (format v) <= n.
Proof.
  induction t as [t|t IH|ts Ne] using sig_ind; intros j v R.
  - cbn [reads] in R. destruct v as [p|vs]; [|contradiction R]. apply prim_reads_typed in R. split.
    + apply appends_prim. apply R.
    + exists (prim_max_byte_size t). split; [reflexivity|]. now apply prim_max.
  - cbn [reads] in R. destruct v as [p|vs]; [contradiction R|]. destruct R as (js & -> & L & F).
    assert (Lv : nlen vs = nlen js) by (apply Forall2_len in F; unfold nlen; lia).
    assert (X : Forall (fun v => appends (encode_value v) (format v)) vs /\ exists n, sum_sizes (value_byte_size t) js = Ok n /\ nlen (flat_map format vs) <= n).
    { clear L Lv. induction F as [|j v js vs Rv F IHF]; [split; [constructor|exists 0; split; [reflexivity|vm_compute; discriminate]]|].
      destruct IHF as (A & n & E & Ln). destruct (IH j v Rv) as (Av & m & Em & Lm). split; [constructor; assumption|].
      cbn [sum_sizes]. rewrite Em, E. cbn [bind]. exists (m + n). split; [reflexivity|]. cbn [flat_map]. rewrite nlen_app. lia. }
    destruct X as (A & n & E & Ln). split.
    + cbn [encode_value format]. apply appends_slice; [lia|exact A].
    + cbn [value_byte_size]. rewrite E. cbn [bind]. exists (1 + n). split; [reflexivity|]. cbn [format]. rewrite nlen_cons. lia.
  - destruct ts as [|t [|t' ts]]; [destruct v; contradiction R|exfalso; now apply Ne|destruct v; contradiction R].
Qed.
Lemma zip_reads_spec ts : forall ds vs, zip_reads ts ds vs <-> Forall2 (fun '(t, j) v => reads t j v) (combine ts ds) vs.
Proof.
  induction ts as [|t ts IH]; intros ds vs.
  - cbn [combine]. split; intros H; [destruct vs; [constructor|destruct ds; contradiction H]|inversion H; destruct ds; exact Logic.I].
  - destruct ds as [|d ds]; cbn [combine].
    + split; intros H; [destruct vs; [constructor|contradiction H]|inversion H; exact Logic.I].
    + destruct vs as [|v vs]; cbn [zip_reads]; [split; [contradiction|intros H; inversion H]|]. split; intros H.
      * destruct H as [A B]. constructor; [exact A|]. now apply IH.
      * inversion H; subst. split; [assumption|]. now apply IH.
Qed.
Lemma write_values_ok l : forall vs w cap pre, Forall2 (fun '(t, j) v => reads t j v) l vs -> holds w cap pre -> nlen pre + nlen (flat_map format vs) <= cap ->
  exists w', write_values l w = Ok w' /\ holds w' cap (pre ++ flat_map format vs).
Proof.
  induction l as [|[t j] l IH]; intros vs w cap pre F H L; inversion F as [|? v ? ys Rv F']; subst; cbn [write_values flat_map].
  - exists w. rewrite app_nil_r. auto.
  - cbn [flat_map] in L. rewrite nlen_app in L. rewrite (proj2 (value_spec t j v) Rv). cbn [bind].
    destruct (reads_size t j v Rv) as (A & _). destruct (proj1 (A w cap pre H)) as (w1 & E1 & H1); [lia|]. rewrite E1. cbn [unwrap bind].
    destruct (IH ys w1 cap _ F' H1) as (w' & E' & H'); [rewrite nlen_app; lia|]. exists w'. split; [exact E'|]. now rewrite <- app_assoc in H'.
Qed.
Lemma write_values_reads l : forall w w', write_values l w = Ok w' -> exists vs, Forall2 (fun '(t, j) v => reads t j v) l vs.
Proof.
  induction l as [|[t j] l IH]; intros w w' E; cbn [write_values] in E; [exists []; constructor|].
  destruct (value_of_json t j) as [v|e|] eqn:Ev; try discriminate E. cbn [bind] in E.
  destruct (encode_value v w) as [w1|]; [|discriminate E]. cbn [unwrap bind] in E. destruct (IH _ _ E) as [vs F].
  exists (v :: vs). constructor; [now apply value_spec|exact F].
Qed.
Lemma reads_fun t : forall j v v', reads t j v -> reads t j v' -> v = v'.
Proof. intros j v v' A B. apply value_spec in A, B. congruence. Qed.
Lemma input_encode_spec ts ds bs :
  input_encode (mkInput ts ds) = Ok bs <-> exists vs, zip_reads ts ds vs /\ bs = flat_map format vs.
Proof.
  unfold input_encode, cap, zip. cbn [in_abi in_data].
  assert (Y : forall vs, zip_reads ts ds vs -> exists n, sum_sizes (fun '(t, j) => value_byte_size t j) (combine ts ds) = Ok n /\ nlen (flat_map format vs) <= n).
  { intros vs Z. apply zip_reads_spec in Z. induction Z as [|[t j] v l vs Rv F IH]; [exists 0; split; [reflexivity|vm_compute; discriminate]|].
    destruct IH as (n & E & L). destruct (reads_size t j v Rv) as (_ & m & Em & Lm). cbn [sum_sizes]. rewrite Em, E. cbn [bind].
    exists (m + n). split; [reflexivity|]. cbn [flat_map]. rewrite nlen_app. lia. }
  assert (X : forall vs, zip_reads ts ds vs -> (let* c := sum_sizes (fun '(t, j) => value_byte_size t j) (combine ts ds) in
    let* w := write_values (combine ts ds) (vec_with_capacity c) in unwrap (vec_as_slice w)) = Ok (flat_map format vs)).
  { intros vs Z. destruct (Y vs Z) as (n & E & L). rewrite E. cbn [bind]. apply zip_reads_spec in Z.
    destruct (write_values_ok _ vs (vec_with_capacity n) n [] Z (holds_new n)) as (w & Ew & H); [change (nlen (@nil N)) with 0; lia|].
    rewrite Ew. cbn [bind]. rewrite (holds_slice _ _ _ H). reflexivity. }
  split.
  - intros E. destruct (sum_sizes (fun '(t, j) => value_byte_size t j) (combine ts ds)) as [c|e|] eqn:Ec; try discriminate E. cbn [bind] in E.
    destruct (write_values (combine ts ds) (vec_with_capacity c)) as [w|e|] eqn:Ew; try discriminate E. cbn [bind] in E.
    destruct (write_values_reads _ _ _ Ew) as [vs F]. apply zip_reads_spec in F. exists vs. split; [exact F|].
    pose proof (X vs F) as Xv. rewrite ?Ec in Xv. cbn [bind] in Xv. rewrite Ew in Xv. cbn [bind] in Xv. rewrite E in Xv. congruence.
  - intros (vs & Z & ->). now apply X.
Qed.
Lemma input_encode_ok_dec i : (exists bs, input_encode i = Ok bs) \/ (forall vs, ~ zip_reads (in_abi i) (in_data i) vs) /\ expect (input_encode i) = Panic.
Proof.
  destruct (input_encode i) as [bs|e|] eqn:E; [eauto| |]; right; (split; [|reflexivity]); intros vs Z;
    destruct i as [ts ds]; rewrite (proj2 (input_encode_spec ts ds _) (ex_intro _ vs (conj Z eq_refl))) in E; discriminate E.
Qed.

(* ------------------------------------------------------------------------- *)
(** * Documents with types and values *)

Lemma field_list {A} (f : json -> option A) j name a : get_field f j name = Ok a -> exists v, field name j v /\ f v = Some a.
Proof. apply get_field_ok. Qed.
Lemma spells_fun ts ts' abi : Forall2 spells ts abi -> Forall2 spells ts' abi -> ts = ts'.
Proof.
  intros A B. assert (X : list_of_json sig_of_json (JArr abi) = Some ts) by (apply sigs_spec; eauto).
  assert (Y : list_of_json sig_of_json (JArr abi) = Some ts') by (apply sigs_spec; eauto). congruence.
Qed.
Lemma input_fields_fun j ts ds ts' ds' : input_fields j ts ds -> input_fields j ts' ds' -> ts = ts' /\ ds = ds'.
Proof.
  intros (abi & F1 & S1 & D1) (abi' & F2 & S2 & D2). pose proof (field_fun _ _ _ _ F1 F2) as E. injection E as <-.
  pose proof (field_fun _ _ _ _ D1 D2) as E. injection E as <-. split; [eapply spells_fun; eauto|reflexivity].
Qed.
Lemma nlen_length {A B} (a : list A) (b : list B) : (nlen a =? nlen b) = true <-> length a = length b.
Proof. rewrite N.eqb_eq. unfold nlen. lia. Qed.
Lemma input_new_ok j ts ds : input_new j = Ok (mkInput ts ds) <-> input_fields j ts ds /\ length ts = length ds.
Proof.
  unfold input_new. split.
  - destruct (get_field (list_of_json sig_of_json) j "abi") as [abi|e|] eqn:Ea; try discriminate. cbn [bind].
    destruct (get_field (list_of_json Some) j "data") as [data|e|] eqn:Ed; try discriminate. cbn [bind].
    destruct (nlen abi =? nlen data) eqn:L; [|discriminate]. intros [= -> ->]. apply nlen_length in L. split; [|exact L].
    apply get_field_ok in Ea, Ed. destruct Ea as (va & Fa & Sa). destruct Ed as (vd & Fd & Sd). apply sigs_spec in Sa. apply docs_spec in Sd.
    destruct Sa as (ja & -> & S). subst vd. exists ja. auto.
  - intros ((abi & Fa & S & Fd) & L).
    rewrite (proj2 (get_field_ok (list_of_json sig_of_json) j "abi" ts)) by (exists (JArr abi); split; [exact Fa|apply sigs_spec; eauto]).
    cbn [bind]. rewrite (proj2 (get_field_ok (list_of_json Some) j "data" ds)) by (exists (JArr ds); split; [exact Fd|now apply docs_spec]).
    cbn [bind]. apply nlen_length in L. now rewrite L.
Qed.
Lemma input_new_no_panic j : input_new j <> Panic.
Proof.
  unfold input_new. destruct (get_field_err (list_of_json sig_of_json) j "abi") as [[a ->]|[e ->]]; [|discriminate]. cbn [bind].
  destruct (get_field_err (list_of_json Some) j "data") as [[d ->]|[e ->]]; [|discriminate]. cbn [bind]. destruct (nlen a =? nlen d); discriminate.
Qed.
Lemma input_of_json_spec j ts ds : input_of_json j = Some (mkInput ts ds) <-> arg_fields j ts ds.
Proof.
  unfold input_of_json, arg_fields, input_fields, field.
  assert (X : forall a d, (let? abi := list_of_json sig_of_json a in let? data := list_of_json Some d in Some (mkInput abi data)) = Some (mkInput ts ds)
    <-> exists abi, a = JArr abi /\ Forall2 spells ts abi /\ d = JArr ds).
  { intros a d. split.
    - destruct (list_of_json sig_of_json a) as [abi|] eqn:Ea; [|discriminate]. cbn [obind].
      destruct (list_of_json Some d) as [data|] eqn:Ed; [|discriminate]. cbn [obind]. intros [= -> ->].
      apply sigs_spec in Ea. apply docs_spec in Ed. destruct Ea as (ja & -> & S). eauto.
    - intros (abi & -> & S & ->). rewrite (proj2 (sigs_spec (JArr abi) ts)) by eauto. cbn [obind].
      rewrite (proj2 (docs_spec (JArr ds) ds) eq_refl). reflexivity. }
  split.
  - destruct j as [| | | | |l|fields]; try discriminate.
    + destruct l as [|a [|d [|]]]; try discriminate. cbn [obind]. intros H. apply X in H. destruct H as (abi & -> & S & ->). right. eauto.
    + destruct (assoc (txt "abi") fields) as [a|] eqn:Ea; [|discriminate]. cbn [obind].
      destruct (assoc (txt "data") fields) as [d|] eqn:Ed; [|discriminate]. cbn [obind]. intros H. apply X in H.
      destruct H as (abi & -> & S & ->). left. exists abi. split; [eauto|]. split; [exact S|eauto].
  - intros [(abi & (f & -> & Ea) & S & (f' & [= <-] & Ed))|(abi & -> & S)].
    + rewrite Ea, Ed. cbn [obind]. apply X. eauto.
    + cbn [obind]. apply X. eauto.
Qed.
Lemma arg_spec j bs : (exists a, arg_of_json j = Some a /\ arg_encode a = Ok bs) <-> arg_bytes j bs.
Proof.
  unfold arg_of_json, arg_bytes. split.
  - intros (a & E & Ea). destruct (hex_of_json j) as [b|] eqn:Eh.
    + injection E as <-. cbn [arg_encode] in Ea. injection Ea as <-. left. destruct j; try discriminate Eh. cbn [hex_of_json] in Eh.
      eexists. split; [reflexivity|]. now apply unhex_spelled.
    + right. destruct (input_of_json j) as [[ts ds]|] eqn:Ei; [|discriminate E]. cbn [obind] in E. injection E as <-. cbn [arg_encode] in Ea.
      apply input_of_json_spec in Ei. destruct (input_encode (mkInput ts ds)) as [b|e|] eqn:En; try discriminate Ea. cbn [expect] in Ea. injection Ea as <-.
      apply input_encode_spec in En. destruct En as (vs & Z & ->). exists ts, ds, vs. auto.
  - intros [(s & -> & S)|(ts & ds & vs & F & Z & ->)].
    + apply unhex_spelled in S. cbn [hex_of_json]. rewrite S. exists (Encoded bs). auto.
    + assert (Eh : hex_of_json j = None). { destruct F as [(abi & (f & -> & _) & _)|(abi & -> & _)]; reflexivity. }
      rewrite Eh. apply input_of_json_spec in F. rewrite F. cbn [obind]. eexists. split; [reflexivity|]. cbn [arg_encode].
      rewrite (proj2 (input_encode_spec ts ds _) (ex_intro _ vs (conj Z eq_refl))). reflexivity.
Qed.

(* ------------------------------------------------------------------------- *)
(** * Reading back *)

Lemma mark_byte hi lo : hi < 16 -> lo < 16 -> is_byte (mark hi lo).
Proof. unfold is_byte, mark. lia. Qed.
Lemma prim_format_ok p : prim_ok p -> bytes_ok (prim_format p).
Proof.
  destruct p as [| |b|a|n|t z]; cbn [prim_format prim_ok]; intros O.
  - constructor; [apply mark_byte; lia|constructor].
  - constructor; [apply mark_byte; lia|constructor].
  - constructor; [destruct b; apply mark_byte; lia|constructor].
  - constructor; [apply mark_byte; lia|apply O].
  - pose proof (width_8 n O). constructor; [apply mark_byte; lia|apply number_ok].
  - pose proof (width_ity t z) as W. constructor; [|apply number_ok]. remember (width (complement t z)) as w eqn:Ew. clear Ew.
    destruct t; cbn [int_mark ity_bits] in *; apply mark_byte; try lia; change (Z.to_N 16 / 8) with 2 in W || change (Z.to_N 32 / 8) with 4 in W || change (Z.to_N 64 / 8) with 8 in W; lia.
Qed.
Lemma format_ok v : flat v -> bytes_ok (format v).
Proof.
  destruct v as [p|vs]; [apply prim_format_ok|]. intros [L F]. cbn [format]. constructor.
  - unfold array_mark. destruct (N.ltb_spec (nlen vs) 8); apply mark_byte; lia.
  - clear L. induction F as [|v vs (p & -> & O) _ IH]; [constructor|]. cbn [flat_map format]. apply Forall_app. split; [now apply prim_format_ok|exact IH].
Qed.
Lemma formats_ok vs : Forall flat vs -> bytes_ok (flat_map format vs).
Proof. induction 1; [constructor|]. cbn [flat_map]. apply Forall_app. split; [now apply format_ok|assumption]. Qed.
Lemma reads_flat t j v : flat_sig t -> reads t j v -> flat v.
Proof.
  destruct t as [t|[|[t|] []]]; cbn [flat_sig]; intros Fs R; try contradiction Fs.
  - cbn [reads] in R. destruct v as [p|]; [|contradiction R]. apply prim_reads_typed in R. apply R.
  - cbn [reads] in R. destruct v as [p|vs]; [contradiction R|]. destruct R as (js & -> & L & F). split.
    + pose proof (Forall2_len _ _ _ F). unfold nlen in *. lia.
    + clear L. induction F as [|j v js vs Rv _ IH]; constructor; [|exact IH]. destruct v as [p|]; [|contradiction Rv].
      exists p. split; [reflexivity|]. apply prim_reads_typed in Rv. apply Rv.
Qed.
Lemma prim_shown t j p : prim_reads t j p -> prim_sig p = Some (JStr (type_name t)) /\ prim_to_json p = Some (show_prim p).
Proof.
  destruct t as [| | |t], p as [| |b|a|n|t' z]; cbn [prim_reads]; intros R; try contradiction R; try (split; reflexivity).
  destruct R as (-> & _ & _). split; reflexivity.
Qed.
Lemma value_shown t j v : flat_sig t -> readable v -> reads t j v ->
  ty_sig_of_sdk_value v = Some (show_sig t) /\ sdk_value_to_json v = Some (show_value v).
Proof.
  destruct t as [t|[|[t|] []]]; cbn [flat_sig]; intros Fs Rd R; try contradiction Fs.
  - cbn [reads] in R. destruct v as [p|]; [|contradiction R]. cbn. now apply (prim_shown t j).
  - cbn [reads] in R. destruct v as [p|vs]; [contradiction R|]. destruct R as (js & -> & _ & F). destruct Rd as [Ne _]. split.
    + cbn [ty_sig_of_sdk_value show_sig]. induction F as [|j v js vs Rv F IH]; [now elim Ne|].
      destruct vs as [|v' vs].
      * destruct v as [p|]; [|contradiction Rv]. cbn [ty_sig_of_sdk_value]. destruct (prim_shown t j p Rv) as [-> _]. reflexivity.
      * apply IH. discriminate.
    + cbn [sdk_value_to_json show_value]. clear Ne.
      assert (X : all_some sdk_value_to_json vs = Some (map (fun v => match v with VPrim p => show_prim p | VVec _ => JNull end) vs)).
      { apply all_some_spec. induction F as [|j v js vs Rv F IH]; [constructor|]. cbn [map]. constructor; [|exact IH].
        destruct v as [p|]; [|contradiction Rv]. exact (proj2 (prim_shown t j p Rv)). }
      rewrite X. reflexivity.
Qed.
Lemma loop_ok ts : forall ds vs fuel pre, length ts = length ds -> zip_reads ts ds vs -> Forall flat_sig ts -> Forall readable vs -> (length vs <= fuel)%nat ->
  calldata_loop fuel (at_ pre (flat_map format vs)) = Some (map show_sig ts, map show_value vs).
Proof.
  induction ts as [|t ts IH]; intros [|d ds] [|v vs] fuel pre L Z F R Fu; try discriminate L; try contradiction Z.
  - cbn [flat_map map]. destruct fuel; cbn [calldata_loop]; rewrite next_end; reflexivity.
  - cbn [zip_reads] in Z. destruct Z as [Rv Z]. apply Forall_cons_iff in F. destruct F as [Ft F]. apply Forall_cons_iff in R. destruct R as [Rd R].
    destruct fuel as [|fuel]; [cbn in Fu; lia|]. cbn [calldata_loop flat_map map].
    rewrite next_ok.
    + cbn [obind]. destruct (value_shown t d v Ft Rd Rv) as [-> ->]. cbn [obind].
      rewrite (IH ds vs fuel _) by (auto; cbn in *; lia). reflexivity.
    + eapply reads_flat; eauto.
    + destruct v as [p|l]; cbn; [auto|]. apply Rd.
Qed.
Lemma zip_reads_flat ts : forall ds vs, zip_reads ts ds vs -> Forall flat_sig ts -> Forall flat vs.
Proof.
  induction ts as [|t ts IH]; intros [|d ds] [|v vs] Z F; try contradiction Z; try constructor.
  - destruct Z as [Rv _]. apply Forall_cons_iff in F. eapply reads_flat; [apply F|exact Rv].
  - destruct Z as [_ Z]. apply Forall_cons_iff in F. eapply IH; [exact Z|apply F].
Qed.
Lemma values_length vs : (length vs <= length (flat_map format vs))%nat.
Proof.
  induction vs as [|v vs IH]; [cbn; lia|]. cbn [flat_map]. rewrite app_length. destruct (format_nonempty v) as (b & bs & ->). cbn. lia.
Qed.
Lemma calldata_shown ts ds vs : length ts = length ds -> zip_reads ts ds vs -> Forall flat_sig ts -> Forall readable vs ->
  calldata_to_json (flat_map format vs) = Ok (show_input ts vs).
Proof.
  intros L Z F R. unfold calldata_to_json.
  pose proof (loop_ok ts ds vs (length (flat_map format vs)) [] L Z F R (values_length vs)) as X.
  unfold at_ in X. cbn [app] in X. change (nlen (@nil N)) with 0 in X. unfold calldata_new. rewrite X. reflexivity.
Qed.
Lemma get_data {A} (f : json -> option A) bs : get_field f (data_doc bs) "data" = match f (JStr (hex_upper bs)) with Some a => Ok a | None => Err (InvalidField (txt "data")) end.
Proof. reflexivity. Qed.
Lemma get_data_hex bs : bytes_ok bs -> get_field hex_of_json (data_doc bs) "data" = Ok bs.
Proof. intros B. rewrite get_data. cbn [hex_of_json]. now rewrite unhex_hex_upper. Qed.
(** What is shown is read as the same types and values. *)
Lemma show_sig_spells t : flat_sig t -> spells t (show_sig t).
Proof.
  destruct t as [t|[|[t|] []]]; cbn [flat_sig]; intros F; try contradiction F; cbn [spells show_sig]; [now left|].
  eexists. split; [reflexivity|]. split; [now left|exact Logic.I].
Qed.
Lemma show_sig_to_json t : flat_sig t -> sig_to_json t = show_sig t.
Proof. destruct t as [t|[|[t|] []]]; cbn [flat_sig]; intros F; try contradiction F; reflexivity. Qed.
Lemma show_input_new ts vs : Forall flat_sig ts -> length ts = length vs -> input_new (show_input ts vs) = Ok (mkInput ts (map show_value vs)).
Proof.
  intros F L. apply input_new_ok. split; [|now rewrite map_length].
  exists (map show_sig ts). split; [eexists; split; reflexivity|]. split; [|eexists; split; reflexivity].
  clear L. induction F; constructor; [now apply show_sig_spells|assumption].
Qed.
Lemma show_input_again ts vs : Forall flat_sig ts -> input_to_json (mkInput ts (map show_value vs)) = show_input ts vs.
Proof.
  intros F. unfold input_to_json, show_input. cbn [in_abi in_data]. replace (map sig_to_json ts) with (map show_sig ts); [reflexivity|].
  induction F; [reflexivity|]. cbn [map]. rewrite show_sig_to_json by assumption. now f_equal.
Qed.
Lemma zip_reads_length ts : forall ds vs, length ts = length ds -> zip_reads ts ds vs -> length ts = length vs.
Proof.
  induction ts as [|t ts IH]; intros [|d ds] [|v vs] L Z; try discriminate L; try contradiction Z; [reflexivity|].
  cbn in *. f_equal. apply (IH ds); [lia|apply Z].
Qed.
(** Normal documents are shown as they are. *)
Lemma normal_prim_shown t j p : normal_prim t j -> prim_reads t j p -> show_prim p = j.
Proof.
  destruct t as [| | |t], p as [| |b|a|n|t' z]; cbn [prim_reads normal_prim]; intros Nm R; try contradiction R.
  - now subst.
  - now destruct R as [-> _].
  - destruct R as (s & -> & S & _). destruct Nm as (s' & [= <-] & U). cbn [show_prim]. f_equal. symmetry. now apply spelled_unique.
  - now destruct R as (-> & -> & _).
Qed.
Lemma normal_shown t j v : flat_sig t -> normal t j -> reads t j v -> show_value v = j.
Proof.
  destruct t as [t|[|[t|] []]]; cbn [flat_sig normal]; intros Fs Nm R; try contradiction Fs.
  - cbn [reads] in R. destruct v as [p|]; [|contradiction R]. eapply normal_prim_shown; eauto.
  - cbn [reads] in R. destruct v as [p|vs]; [contradiction R|]. destruct R as (js & -> & _ & F). specialize (Nm js eq_refl).
    cbn [show_value]. f_equal. induction F as [|j v js vs Rv _ IH]; [reflexivity|]. apply Forall_cons_iff in Nm. destruct Nm as [Nj Nm].
    cbn [map]. rewrite (IH Nm). f_equal. destruct v as [p|]; [|contradiction Rv]. eapply normal_prim_shown; eauto.
Qed.

(* ------------------------------------------------------------------------- *)
(** * Calls and spawns *)

Lemma u16_spec j n : u16_of_json j = Some n <-> j = JNum (Z.of_N n) /\ n < 65536.
Proof.
  unfold u16_of_json. split.
  - destruct j as [| |z| | | |]; try discriminate. destruct ((0 <=? z) && (z <=? 65535))%Z eqn:E; [|discriminate]. intros [= <-]. split; [f_equal; lia|lia].
  - intros [-> L]. replace ((0 <=? Z.of_N n) && (Z.of_N n <=? 65535))%Z with true by lia. f_equal. lia.
Qed.
Lemma string_spec j s : string_of_json j = Some s <-> j = JStr s.
Proof. unfold string_of_json. destruct j; split; intros H; try discriminate H; congruence. Qed.
Lemma reads_bytes_ok t : forall j v, reads t j v -> bytes_ok (format v).
Proof.
  induction t as [t|t IH|ts Ne] using sig_ind; intros j v R.
  - cbn [reads] in R. destruct v as [p|vs]; [|contradiction R]. apply prim_format_ok. apply prim_reads_typed in R. apply R.
  - cbn [reads] in R. destruct v as [p|vs]; [contradiction R|]. destruct R as (js & -> & L & F). cbn [format]. constructor.
    + pose proof (Forall2_len _ _ _ F). unfold array_mark, nlen in *. destruct (N.ltb_spec (N.of_nat (length vs)) 8); apply mark_byte; lia.
    + clear L. induction F as [|j v js vs Rv _ IHF]; [constructor|]. cbn [flat_map]. apply Forall_app. split; [eapply IH; exact Rv|exact IHF].
  - destruct ts as [|t [|t' ts]]; [destruct v; contradiction R|exfalso; now apply Ne|destruct v; contradiction R].
Qed.
Lemma arg_bytes_ok j bs : arg_bytes j bs -> bytes_ok bs.
Proof.
  intros [(s & _ & S)|(ts & ds & vs & _ & Z & ->)]; [eapply spelled_ok; exact S|].
  revert ds vs Z. induction ts as [|t ts IH]; intros [|d ds] [|v vs] Z; try contradiction Z; try constructor.
  destruct Z as [R Z]. cbn [flat_map]. apply Forall_app. split; [eapply reads_bytes_ok; exact R|eapply IH; exact Z].
Qed.
Lemma bind_ok {E A B} (m : outcome E A) (k : A -> outcome E B) b : bind m k = Ok b <-> exists a, m = Ok a /\ k a = Ok b.
Proof.
  destruct m as [a|e|]; cbn [bind]; split.
  - eauto.
  - intros (a' & [= <-] & H). exact H.
  - discriminate.
  - intros (a & H & _). discriminate H.
  - discriminate.
  - intros (a & H & _). discriminate H.
Qed.
Lemma unwrap_ok {A} (o : option A) a : unwrap o = Ok a <-> o = Some a.
Proof. destruct o; cbn; split; intros H; try discriminate H; congruence. Qed.
Lemma arg_field j name bs : (exists a, get_field arg_of_json j name = Ok a /\ arg_encode a = Ok bs) <-> exists v, field name j v /\ arg_bytes v bs.
Proof.
  split.
  - intros (a & E & Ea). apply get_field_ok in E. destruct E as (v & F & S). exists v. split; [exact F|]. apply arg_spec. eauto.
  - intros (v & F & B). apply arg_spec in B. destruct B as (a & S & Ea). exists a. split; [|exact Ea]. apply get_field_ok. eauto.
Qed.
Lemma encode_call_spec j bs : encode_call_raw j = Ok bs <-> exists t, call_doc j t /\ enc_transaction t = Some bs.
Proof.
  unfold encode_call_raw, call_doc. split.
  - intros H. apply bind_ok in H. destruct H as (version & E1 & H). apply bind_ok in H. destruct H as (target & E2 & H).
    apply bind_ok in H. destruct H as (name & E3 & H). apply bind_ok in H. destruct H as (v & E4 & H).
    apply bind_ok in H. destruct H as (vd & E5 & H). apply bind_ok in H. destruct H as (c & E6 & H). apply bind_ok in H. destruct H as (cd & E7 & H).
    apply unwrap_ok in H. eexists. split; [|exact H]. cbn [tx_version tx_target tx_func_name tx_verifydata tx_calldata].
    apply get_field_ok in E1, E2, E3. destruct E1 as (v1 & F1 & S1). destruct E2 as (v2 & F2 & S2). destruct E3 as (v3 & F3 & S3).
    apply u16_spec in S1. destruct S1 as [-> L1]. apply address_spec in S2. destruct S2 as (s & -> & Sp & L2). apply string_spec in S3. subst v3.
    split; [exact F1|]. split; [exact L1|]. split; [eauto|]. split; [exact F3|]. split; apply arg_field; eauto.
  - intros (t & (F1 & L1 & (s & F2 & Sp & L2) & F3 & A4 & A5) & H).
    rewrite (proj2 (get_field_ok u16_of_json j "version" (tx_version t))) by (eexists; split; [exact F1|now apply u16_spec]). cbn [bind].
    rewrite (proj2 (get_field_ok address_of_json j "target" (tx_target t))) by (eexists; split; [exact F2|apply address_spec; eauto]). cbn [bind].
    rewrite (proj2 (get_field_ok string_of_json j "func_name" (tx_func_name t))) by (eexists; split; [exact F3|now apply string_spec]). cbn [bind].
    apply arg_field in A4, A5. destruct A4 as (v & -> & Ev). destruct A5 as (c & Ec & Ecd). cbn [bind]. rewrite Ev. cbn [bind]. rewrite Ec.
    cbn [bind]. rewrite Ecd. cbn [bind]. apply unwrap_ok. destruct t. exact H.
Qed.
Lemma encode_spawn_spec j bs : encode_spawn j = Ok bs <-> exists s, spawn_doc j s /\ enc_spawn s = Some bs.
Proof.
  unfold encode_spawn, spawn_doc. split.
  - intros H. apply bind_ok in H. destruct H as (version & E1 & H). apply bind_ok in H. destruct H as (target & E2 & H).
    apply bind_ok in H. destruct H as (name & E3 & H). apply bind_ok in H. destruct H as (ctor & E4 & H).
    apply bind_ok in H. destruct H as (c & E6 & H). apply bind_ok in H. destruct H as (cd & E7 & H).
    apply unwrap_ok in H. eexists. split; [|exact H]. cbn [sp_version sp_template sp_name sp_ctor sp_calldata].
    apply get_field_ok in E1, E2, E3, E4. destruct E1 as (v1 & F1 & S1). destruct E2 as (v2 & F2 & S2). destruct E3 as (v3 & F3 & S3). destruct E4 as (v4 & F4 & S4).
    apply u16_spec in S1. destruct S1 as [-> L1]. apply address_spec in S2. destruct S2 as (s & -> & Sp & L2). apply string_spec in S3, S4. subst v3 v4.
    split; [exact F1|]. split; [exact L1|]. split; [eauto|]. split; [exact F3|]. split; [exact F4|]. apply arg_field; eauto.
  - intros (t & (F1 & L1 & (s & F2 & Sp & L2) & F3 & F4 & A5) & H).
    rewrite (proj2 (get_field_ok u16_of_json j "version" (sp_version t))) by (eexists; split; [exact F1|now apply u16_spec]). cbn [bind].
    rewrite (proj2 (get_field_ok address_of_json j "template" (sp_template t))) by (eexists; split; [exact F2|apply address_spec; eauto]). cbn [bind].
    rewrite (proj2 (get_field_ok string_of_json j "name" (sp_name t))) by (eexists; split; [exact F3|now apply string_spec]). cbn [bind].
    rewrite (proj2 (get_field_ok string_of_json j "ctor_name" (sp_ctor t))) by (eexists; split; [exact F4|now apply string_spec]). cbn [bind].
    apply arg_field in A5. destruct A5 as (c & Ec & Ecd). rewrite Ec. cbn [bind]. rewrite Ecd. cbn [bind]. apply unwrap_ok. destruct t. exact H.
Qed.
Lemma call_doc_wf j t : call_doc j t -> string_wf 255 (tx_func_name t) -> nlen (tx_verifydata t) <= 255 -> nlen (tx_calldata t) <= 255 -> transaction_wf t.
Proof.
  intros (_ & L & (s & _ & Sp & L2) & _ & (v & _ & Av) & (c & _ & Ac)) W L4 L5. constructor; auto.
  - split; [exact L2|]. eapply spelled_ok; exact Sp.
  - split; [exact L4|]. eapply arg_bytes_ok; exact Av.
  - split; [exact L5|]. eapply arg_bytes_ok; exact Ac.
Qed.
Lemma spawn_doc_wf j t : spawn_doc j t -> string_wf 255 (sp_name t) -> string_wf 255 (sp_ctor t) -> nlen (sp_calldata t) <= 255 -> spawn_wf t.
Proof.
  intros (_ & L & (s & _ & Sp & L2) & _ & _ & (c & _ & Ac)) W W' L5. constructor; auto.
  - split; [exact L2|]. eapply spelled_ok; exact Sp.
  - split; [exact L5|]. eapply arg_bytes_ok; exact Ac.
Qed.
Lemma raw_shown bs j : shown_input bs j -> decode_raw_input bs = Ok j.
Proof. intros (ts & ds & vs & L & Z & F & R & -> & ->). unfold decode_raw_input. eapply calldata_shown; eauto. Qed.
Lemma shown_new bs j : shown_input bs j -> exists i, input_new j = Ok i /\ input_to_json i = j.
Proof.
  intros (ts & ds & vs & L & Z & F & R & -> & ->). eexists. split; [apply show_input_new; [exact F|eapply zip_reads_length; eauto]|]. now apply show_input_again.
Qed.

(* ------------------------------------------------------------------------- *)
(** * Receipts *)

Lemma logs_shown logs : text_logs logs -> logs_to_json logs = Some (map (fun l => JObj [(txt "data", JStr l)]) logs).
Proof. induction 1 as [|l logs U _ IH]; [reflexivity|]. cbn [logs_to_json map]. rewrite U, IH. reflexivity. Qed.
Lemma logs_abort logs : ~ text_logs logs -> logs_to_json logs = None.
Proof.
  induction logs as [|l logs IH]; intros H; [now elim H; constructor|]. cbn [logs_to_json]. destruct (utf8_valid l) eqn:U; [|reflexivity].
  cbn [ensure obind]. rewrite IH; [reflexivity|]. intros T. apply H. now constructor.
Qed.
Lemma gas_shown g : small_gas g -> gas_to_json g = JNum (match g with Some n => Z.of_N n | None => -1 end).
Proof.
  destruct g as [n|]; [|reflexivity]. cbn [small_gas gas_to_json]. intros L. f_equal. apply as_ity_id. unfold AbiSpec.in_range. cbn. lia.
Qed.
Lemma view_is r : receipt_view r = view r.
Proof. destruct r; reflexivity. Qed.
Lemma hex_upper_inj a b : bytes_ok a -> bytes_ok b -> hex_upper a = hex_upper b -> a = b.
Proof. intros A B E. apply unhex_hex_upper in A, B. rewrite E in A. congruence. Qed.
Lemma hex_list_inj l : forall l', Forall bytes_ok l -> Forall bytes_ok l' ->
  map (fun a => JStr (hex_upper a)) l = map (fun a => JStr (hex_upper a)) l' -> l = l'.
Proof.
  induction l as [|a l IH]; intros [|a' l'] A B E; try discriminate E; [reflexivity|]. cbn [map] in E. injection E as E1 E2.
  apply Forall_cons_iff in A, B. f_equal; [apply hex_upper_inj; [apply A|apply B|exact E1]|apply IH; [apply A|apply B|exact E2]].
Qed.
Lemma logs_inj l : forall l', map (fun l => JObj [(txt "data", JStr l)]) l = map (fun l => JObj [(txt "data", JStr l)]) l' -> l = l'.
Proof. induction l as [|a l IH]; intros [|a' l'] E; try discriminate E; [reflexivity|]. cbn [map] in E. injection E as -> E2. f_equal. now apply IH. Qed.
Ltac at_field := eexists; split; [reflexivity|reflexivity].
Lemma error_shown ty e logs j : text_logs logs -> decode_error_json ty e logs = Some j ->
  text "type" j ty /\ field "success" j (JBool false) /\ shows_error e j /\ shown_logs logs j.
Proof.
  intros T. unfold decode_error_json. rewrite logs_shown by exact T. cbn [obind]. intros H. apply Some_inj in H. subst j.
  destruct e; (split; [at_field|]); (split; [at_field|]); (split; [|at_field]); cbn [shows_error]; repeat split; at_field.
Qed.
Lemma error_none_shown ty e logs : ~ text_logs logs -> decode_error_json ty e logs = None.
Proof. intros H. unfold decode_error_json. now rewrite logs_abort. Qed.
(** Encodings of receipts are bytes. *)
Definition ok_out (o : option bytes) : Prop := forall bs, o = Some bs -> bytes_ok bs.
Lemma ok_bind {A} (o : option A) (k : A -> option bytes) : (forall a, o = Some a -> ok_out (k a)) -> ok_out (obind o k).
Proof. intros H bs. destruct o as [a|]; [|discriminate]. cbn [obind]. now apply H. Qed.
Lemma ok_some bs : bytes_ok bs -> ok_out (Some bs).
Proof. intros B bs' H. apply Some_inj in H. now subst. Qed.
Lemma ok_logs ls : logs_wf ls -> ok_out (enc_logs ls).
Proof.
  intros [L F]. unfold enc_logs. destruct (nlen ls <=? u8_max); [|intros bs H; discriminate H].
  apply ok_bind. intros b E. apply ok_some. constructor; [unfold is_byte; lia|]. clear L. revert b E.
  induction F as [|l ls [Ll Bl] _ IH]; intros b E; cbn [enc_seq] in E; [apply Some_inj in E; subst; constructor|].
  destruct (enc_log l) as [x|] eqn:Ex; [|discriminate E]. cbn [obind] in E. destruct (enc_seq enc_log ls) as [r|] eqn:Er; [|discriminate E].
  cbn [obind] in E. apply Some_inj in E. subst b. unfold enc_log in Ex. destruct (nlen l <=? u16_max); [|discriminate Ex]. apply Some_inj in Ex. subst x.
  apply Forall_app. split; [apply Forall_app; split; [apply be_bytes_ok|exact Bl]|]. apply (IH r). exact eq_refl.
Qed.
Lemma ok_touched s : touched_wf s -> ok_out (enc_touched s).
Proof.
  intros (L & _ & F). unfold enc_touched. destruct (nlen s <=? u16_max); [|intros bs H; discriminate H]. apply ok_some.
  apply Forall_app. split; [apply be_bytes_ok|]. clear L. induction F as [|a s [_ Ba] _ IH]; [constructor|]. cbn [concat]. apply Forall_app. auto.
Qed.
Lemma ok_string f : string_wf 255 f -> ok_out (enc_string f).
Proof. intros [[L B] U]. rewrite enc_string_some by exact L. apply ok_some. constructor; [unfold is_byte; lia|exact B]. Qed.
Lemma ok_msg m : msg_wf m -> ok_out (enc_msg m).
Proof.
  intros W. destruct (msg_enc m W) as [-> [[L B] U]]. apply ok_some. constructor; [unfold is_byte; lia|exact B].
Qed.
Lemma ok_app2 a b : bytes_ok a -> bytes_ok b -> bytes_ok (a ++ b).
Proof. intros A B. apply Forall_app. auto. Qed.
Lemma ok_err e : error_wf e -> ok_out (enc_err_body e).
Proof.
  intros W. destruct e; cbn [enc_err_body error_wf] in *; unfold enc_array; cbn [obind];
    repeat match goal with H : _ /\ _ |- _ => destruct H end;
    repeat (apply ok_bind; intros ? ?);
    repeat match goal with H : enc_string ?f = Some ?z |- _ => apply ok_string in H; [|assumption] | H : enc_msg ?f = Some ?z |- _ => apply ok_msg in H; [|assumption] end;
    apply ok_some; unfold array_wf in *; repeat match goal with H : _ /\ _ |- _ => destruct H end; repeat apply ok_app2; auto; try constructor.
Qed.
Lemma ok_failure e logs : error_wf e -> logs_wf logs -> ok_out (enc_failure e logs).
Proof.
  intros We Wl. unfold enc_failure. apply ok_bind. intros l El. apply ok_bind. intros b Eb. apply ok_some.
  constructor; [destruct e; unfold is_byte; cbn; lia|]. apply ok_app2; [now apply (ok_logs logs)|now apply (ok_err e)].
Qed.
Lemma ok_return d : blob_wf 65535 d -> ok_out (enc_return d).
Proof. intros W. rewrite enc_return_some by exact W. apply ok_some, ok_app2; [apply be_bytes_ok|apply W]. Qed.
Lemma ok_head k s v : k < 256 -> bytes_ok (v ++ [if s : bool then 1 else 0]) -> forall b, bytes_ok b -> bytes_ok (k :: v ++ [if s then 1 else 0] ++ b).
Proof. intros K V b B. constructor; [exact K|]. rewrite app_assoc. now apply ok_app2. Qed.
Lemma ok_receipt r : receipt_wf r -> ok_out (enc_receipt r).
Proof.
  intros W.
  assert (V : forall s : bool, bytes_ok (be_bytes 2 0 ++ [if s then 1 else 0])).
  { intros s. apply ok_app2; [apply be_bytes_ok|]. constructor; [destruct s; unfold is_byte; lia|constructor]. }
  destruct r as [d|s|c]; cbn [receipt_wf enc_receipt] in *.
  - destruct W as (Ev & Wl & W). unfold enc_deploy_receipt, enc_u16, enc_uint, enc_bool. rewrite Ev. cbn [obind]. destruct (dr_success d).
    + destruct W as (_ & (a & -> & Wa) & Wg). cbn [obind]. unfold enc_array, enc_gas, enc_u64, enc_uint. cbn [obind]. apply ok_bind. intros l El. apply ok_some.
      apply (ok_head 0 true (be_bytes 2 0)); [lia|exact (V true)|]. apply ok_app2; [apply Wa|]. apply ok_app2; [apply be_bytes_ok|]. now apply (ok_logs (dr_logs d)).
    + destruct W as (e & -> & We). cbn [obind]. apply ok_bind. intros f Ef. apply ok_some. apply (ok_head 0 false (be_bytes 2 0)); [lia|exact (V false)|].
      apply (ok_failure e []); [exact We| |exact Ef]. split; [cbn; lia|constructor].
  - destruct W as (Ev & Wl & W). unfold enc_spawn_receipt, enc_u16, enc_uint, enc_bool. rewrite Ev. cbn [obind]. destruct (sr_success s).
    + destruct W as (_ & (a & -> & Wa) & (st & -> & Ws) & (rd & -> & Wr) & Wg & Wt). cbn [obind]. unfold enc_array, enc_gas, enc_u64, enc_uint. cbn [obind].
      apply ok_bind. intros b Eb. cbn [obind]. apply ok_bind. intros t Et. apply ok_bind. intros l El. apply ok_some.
      apply (ok_head 1 true (be_bytes 2 0)); [lia|exact (V true)|]. apply ok_app2; [apply Wa|]. apply ok_app2; [apply Ws|]. apply ok_app2; [now apply (ok_return rd)|].
      apply ok_app2; [apply be_bytes_ok|]. apply ok_app2; [now apply (ok_touched (sr_touched s))|now apply (ok_logs (sr_logs s))].
    + destruct W as (e & -> & We). cbn [obind]. apply ok_bind. intros f Ef. apply ok_some. apply (ok_head 1 false (be_bytes 2 0)); [lia|exact (V false)|].
      now apply (ok_failure e (sr_logs s)).
  - destruct W as (Ev & Wl & W). unfold enc_call_receipt, enc_u16, enc_uint, enc_bool. rewrite Ev. cbn [obind]. destruct (cr_success c).
    + destruct W as (_ & (st & -> & Ws) & (rd & -> & Wr) & Wg & Wt). cbn [obind]. unfold enc_array, enc_gas, enc_u64, enc_uint. cbn [obind].
      apply ok_bind. intros b Eb. cbn [obind]. apply ok_bind. intros t Et. apply ok_bind. intros l El. apply ok_some.
      apply (ok_head 2 true (be_bytes 2 0)); [lia|exact (V true)|]. apply ok_app2; [apply Ws|]. apply ok_app2; [now apply (ok_return rd)|].
      apply ok_app2; [apply be_bytes_ok|]. apply ok_app2; [now apply (ok_touched (cr_touched c))|now apply (ok_logs (cr_logs c))].
    + destruct W as (e & -> & We). cbn [obind]. apply ok_bind. intros f Ef. apply ok_some. apply (ok_head 2 false (be_bytes 2 0)); [lia|exact (V false)|].
      now apply (ok_failure e (cr_logs c)).
Qed.
(** The logs that reach the document. *)
Definition wire_logs (r : receipt) : list bytes := receipt_logs (view r).
Lemma receipt_shown r : receipt_wf r -> text_logs (wire_logs r) ->
  exists bs, enc_receipt r = Some bs /\ exists j, (forall rest, bytes_ok rest -> decode_receipt (data_doc (bs ++ rest)) = Ok j) /\ shows r j.
Proof.
  intros W T. destruct (receipt_rt r W) as (bs & E & D). exists bs. split; [exact E|].
  assert (N : bs <> []). { intros ->. specialize (D []). discriminate D. }
  assert (B : bytes_ok bs) by exact (ok_receipt r W bs E).
  assert (Dr : forall rest, bytes_ok rest -> decode_receipt (data_doc (bs ++ rest)) =
    unwrap (if receipt_success (view r) then
              match view r with RDeploy d => deploy_to_json d (receipt_type (view r)) | RSpawn s => spawn_to_json s (receipt_type (view r)) | RCall c => call_to_json c (receipt_type (view r)) end
            else let? e := receipt_error (view r) in decode_error_json (receipt_type (view r)) e (receipt_logs (view r)))).
  { intros rest Br. unfold decode_receipt. rewrite get_data_hex by (apply Forall_app; auto). cbn [bind].
    replace (0 <? nlen (bs ++ rest)) with true by (rewrite nlen_app; destruct bs; [now elim N|rewrite nlen_cons; lia]).
    cbn [ensure unwrap bind]. unfold decode_bytes. rewrite D, view_is. reflexivity. }
  enough (X : exists j, (if receipt_success (view r) then
              match view r with RDeploy d => deploy_to_json d (receipt_type (view r)) | RSpawn s => spawn_to_json s (receipt_type (view r)) | RCall c => call_to_json c (receipt_type (view r)) end
            else let? e := receipt_error (view r) in decode_error_json (receipt_type (view r)) e (receipt_logs (view r))) = Some j /\ shows r j).
  { destruct X as (j & X & S). exists j. split; [|exact S]. intros rest Br. rewrite (Dr rest Br), X. reflexivity. }
  clear Dr D E N B bs. unfold wire_logs in T. unfold shows, shows_with.
  destruct r as [d|s|c]; cbn [view receipt_wf receipt_type ReceiptSpec.kind_of kind_name succeeded] in *.
  - unfold deploy_view in *. destruct W as (V & Lw & W). destruct (dr_success d) eqn:Sc.
    + destruct W as (En & (a & Ea & Wa) & Gw). cbn [receipt_success receipt_logs] in *. rewrite Sc. unfold deploy_to_json. rewrite En, Ea.
      cbn [ensure obind]. rewrite logs_shown by exact T. cbn [obind]. eexists. split; [reflexivity|]. split; [at_field|]. split; [at_field|].
      split; [intros a' [= <-]; at_field|]. split; [|at_field]. intros Sg. unfold shown_gas. rewrite <- gas_shown by exact Sg. at_field.
    + destruct W as (e & Ee & We). cbn [receipt_success receipt_logs dr_success dr_logs receipt_error dr_error] in *. rewrite Ee. cbn [option_map obind].
      destruct (decode_error_json (txt "deploy-template") (error_on_wire e) []) as [j|] eqn:Ej.
      2:{ unfold decode_error_json in Ej. discriminate Ej. }
      destruct (error_shown _ _ _ _ T Ej) as (A1 & A2 & A3 & A4). exists j. split; [reflexivity|]. split; [exact A1|]. split; [exact A2|].
      intros e' [= <-]. exact A3.
  - unfold spawn_view in *. destruct W as (V & Lw & W). destruct (sr_success s) eqn:Sc.
    + destruct W as (En & (a & Ea & Wa) & (st & Es & Ws) & (rd & Er & Wr) & Gw & Tw). cbn [receipt_success receipt_logs] in *. rewrite Sc. unfold spawn_to_json. rewrite En, Ea, Es, Er.
      cbn [ensure obind]. rewrite logs_shown by exact T. cbn [obind]. eexists. split; [reflexivity|]. split; [at_field|]. split; [at_field|].
      split; [intros a' [= <-]; at_field|]. split; [intros a' [= <-]; at_field|]. split; [intros a' [= <-]; at_field|].
      split; [|split; [at_field|at_field]]. intros Sg. unfold shown_gas. rewrite <- gas_shown by exact Sg. at_field.
    + destruct W as (e & Ee & We). cbn [receipt_success receipt_logs sr_success sr_logs receipt_error sr_error] in *. rewrite Ee. cbn [option_map obind].
      destruct (decode_error_json (txt "spawn-account") (error_on_wire e) (sr_logs s)) as [j|] eqn:Ej.
      2:{ unfold decode_error_json in Ej. rewrite logs_shown in Ej by exact T. discriminate Ej. }
      destruct (error_shown _ _ _ _ T Ej) as (A1 & A2 & A3 & A4). exists j. split; [reflexivity|]. split; [exact A1|]. split; [exact A2|].
      split; [intros e' [= <-]; exact A3|exact A4].
  - unfold call_view in *. destruct W as (V & Lw & W). destruct (cr_success c) eqn:Sc.
    + destruct W as (En & (st & Es & Ws) & (rd & Er & Wr) & Gw & Tw). cbn [receipt_success receipt_logs] in *. rewrite Sc. unfold call_to_json. rewrite En, Es, Er.
      cbn [ensure obind]. rewrite logs_shown by exact T. cbn [obind]. eexists. split; [reflexivity|]. split; [at_field|]. split; [at_field|].
      split; [intros a' [= <-]; at_field|]. split; [intros a' [= <-]; at_field|].
      split; [|split; [at_field|at_field]]. intros Sg. unfold shown_gas. rewrite <- gas_shown by exact Sg. at_field.
    + destruct W as (e & Ee & We). cbn [receipt_success receipt_logs cr_success cr_logs receipt_error cr_error] in *. rewrite Ee. cbn [option_map obind].
      destruct (decode_error_json (txt "call-account") (error_on_wire e) (cr_logs c)) as [j|] eqn:Ej.
      2:{ unfold decode_error_json in Ej. rewrite logs_shown in Ej by exact T. discriminate Ej. }
      destruct (error_shown _ _ _ _ T Ej) as (A1 & A2 & A3 & A4). exists j. split; [reflexivity|]. split; [exact A1|]. split; [exact A2|].
      split; [intros e' [= <-]; exact A3|exact A4].
Qed.

(* ------------------------------------------------------------------------- *)
(** * Complaints and order *)

Lemma get_field_blames {A} (f : json -> option A) (names : list string) (good : string -> json -> Prop) j name e :
  In name names -> (forall v, good name v -> exists a, f v = Some a) -> get_field f j name = Err e -> blames names good j e.
Proof.
  intros I G. unfold get_field. destruct j as [| | | | | |fields]; try (intros [= <-]; cbn [blames]; congruence).
  destruct (assoc (txt name) fields) as [v|] eqn:Ea.
  - destruct (f v) eqn:Ef; [discriminate|]. intros [= <-]. cbn [blames]. exists name, v. split; [exact I|]. split; [reflexivity|].
    split; [exists fields; auto|]. intros Gv. apply G in Gv. destruct Gv as [a E]. congruence.
  - intros [= <-]. cbn [blames]. exists name, fields. auto.
Qed.
Lemma bind_err {E A B} (m : outcome E A) (k : A -> outcome E B) e : bind m k = Err e -> m = Err e \/ exists a, m = Ok a /\ k a = Err e.
Proof. destruct m; cbn [bind]; [eauto|intros [= ->]; auto|discriminate]. Qed.
Lemma expect_err {A} (o : jm A) e : expect o <> Err e.
Proof. destruct o; discriminate. Qed.
Lemma unwrap_err {A} (o : option A) e : unwrap o <> Err e.
Proof. destruct o; discriminate. Qed.
Lemma arg_encode_err a e : arg_encode a <> Err e.
Proof. destruct a; [discriminate|]. apply expect_err. Qed.
Lemma calldata_err bs e : calldata_to_json bs <> Err e.
Proof. unfold calldata_to_json. intros H. apply bind_err in H. destruct H as [H|([a d] & _ & H)]; [exact (unwrap_err _ _ H)|discriminate H]. Qed.
Lemma u16_good v : acceptable "version" v -> exists a, u16_of_json v = Some a.
Proof. intros (H & _). destruct (H eq_refl) as (n & -> & L). exists n. now apply u16_spec. Qed.
Lemma address_good v s : s = "target"%string \/ s = "template"%string -> acceptable s v -> exists a, address_of_json v = Some a.
Proof. intros I (_ & H & _). destruct (H I) as (x & a & -> & S & L). exists a. apply address_spec. eauto. Qed.
Lemma string_good v s : s = "func_name"%string \/ s = "name"%string \/ s = "ctor_name"%string -> acceptable s v -> exists a, string_of_json v = Some a.
Proof. intros I (_ & _ & H & _). destruct (H I) as (x & ->). exists x. now apply string_spec. Qed.
Lemma arg_good v s : s = "verifydata"%string \/ s = "calldata"%string -> acceptable s v -> exists a, arg_of_json v = Some a.
Proof.
  intros I (_ & _ & _ & H). unfold arg_of_json. destruct (H I) as [(x & bs & -> & S)|(ts & ds & F)].
  - cbn [hex_of_json]. apply unhex_spelled in S. rewrite S. eauto.
  - destruct (hex_of_json v); [eauto|]. apply input_of_json_spec in F. rewrite F. cbn [obind]. eauto.
Qed.
Lemma hex_good v : acceptable_bytes "data" v -> exists a, hex_of_json v = Some a.
Proof. intros H. destruct (H eq_refl) as (s & bs & -> & S). exists bs. now apply unhex_spelled. Qed.

Lemma name_ltb_precedes a : forall b, name_ltb a b = true -> precedes a b.
Proof.
  induction a as [|x a IH]; intros [|y b]; cbn [name_ltb]; try discriminate.
  - intros _. right. exists y, b. reflexivity.
  - intros H. apply orb_true_iff in H. destruct H as [H|H].
    + left. exists [], x, y, a, b. apply N.ltb_lt in H. auto.
    + apply andb_true_iff in H. destruct H as [E H]. apply N.eqb_eq in E. subst y. destruct (IH b H) as [(p & u & v & a' & b' & -> & -> & L)|(y & b' & ->)].
      * left. exists (x :: p), u, v, a', b'. auto.
      * right. exists y, b'. reflexivity.
Qed.
Lemma name_trichotomy a : forall b, bytes_eqb b a = false -> name_ltb a b = false -> precedes b a.
Proof.
  induction a as [|x a IH]; intros [|y b]; cbn [name_ltb bytes_eqb]; try discriminate.
  - intros _ _. right. exists x, a. reflexivity.
  - intros E H. apply orb_false_iff in H. destruct H as [H1 H2]. apply N.ltb_ge in H1. destruct (N.eqb_spec x y) as [->|D].
    + rewrite N.eqb_refl in E. cbn [andb] in E, H2. destruct (IH b E H2) as [(p & u & v & a' & b' & -> & -> & L)|(z & b' & ->)].
      * left. exists (y :: p), u, v, a', b'. auto.
      * right. exists z, b'. reflexivity.
    + left. exists [], y, x, b, a. repeat split. lia.
Qed.
Lemma insert_in_order k v m : in_order (map fst m) -> in_order (map fst (map_insert k v m)).
Proof.
  induction m as [|[k1 v1] m IH]; [cbn; trivial|]. cbn [map_insert]. destruct (bytes_eqb k1 k) eqn:E.
  - apply bytes_eqb_true in E. subst k1. trivial.
  - destruct (name_ltb k k1) eqn:L.
    + intros O. cbn [map fst]. split; [now apply name_ltb_precedes|exact O].
    + intros O. pose proof (name_trichotomy _ _ E L) as P.
      assert (O' : in_order (map fst m)) by (destruct m as [|[k2 v2] m]; [exact I|exact (proj2 O)]). specialize (IH O').
      destruct m as [|[k2 v2] m]; [cbn; auto|]. cbn [map_insert] in IH |- *.
      destruct (bytes_eqb k2 k) eqn:E2; [apply bytes_eqb_true in E2; subst k2; cbn [map fst] in *; split; [exact (proj1 O)|exact IH]|].
      destruct (name_ltb k k2) eqn:L2; cbn [map fst] in *; (split; [|exact IH]); [exact P|exact (proj1 O)].
Qed.
