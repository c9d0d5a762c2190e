(** Lemmas about the template macro. *)
From Coq Require Import String List NArith ZArith Arith Bool Lia ZifyBool ZifyNat ZifyN Permutation.
From Verif Require Import Base Text CodecModel CodecSpec ReceiptModel ReceiptProofs LayoutModel LayoutSpec LayoutProofs SectionModel SectionSpec SectionProofs SectionCanon
  SdkModel SdkSpec SdkProofs AbiModel JsonModel JsonProofs MacroModel MacroSpec.
Import ListNotations.
Open Scope list_scope.
Open Scope N_scope.

(* ------------------------------------------------------------------------- *)
(** ** Annotations *)

Definition kind_name (k : attr_kind) : string :=
  match k with KindCtor => "ctor" | KindEndpoint => "endpoint" | KindFundable => "fundable" | KindHook => "fundable_hook" | KindOther => "" end.
Lemma kind_of_name_spec s k : k <> KindOther -> (kind_of_name s = k <-> s = txt (kind_name k)).
Proof.
  intros Nk. unfold kind_of_name.
  destruct (bytes_eqb s (txt "ctor")) eqn:E1; [apply bytes_eqb_spec in E1; subst s; destruct k; split; intros H; try reflexivity; try discriminate H; try congruence|].
  destruct (bytes_eqb s (txt "endpoint")) eqn:E2; [apply bytes_eqb_spec in E2; subst s; destruct k; split; intros H; try reflexivity; try discriminate H; try congruence|].
  destruct (bytes_eqb s (txt "fundable")) eqn:E3; [apply bytes_eqb_spec in E3; subst s; destruct k; split; intros H; try reflexivity; try discriminate H; try congruence|].
  destruct (bytes_eqb s (txt "fundable_hook")) eqn:E4; [apply bytes_eqb_spec in E4; subst s; destruct k; split; intros H; try reflexivity; try discriminate H; try congruence|].
  split; [intros <-; contradiction|]. intros ->.
  destruct k; try contradiction; [apply not_true_iff_false in E1; contradict E1|apply not_true_iff_false in E2; contradict E2
    |apply not_true_iff_false in E3; contradict E3|apply not_true_iff_false in E4; contradict E4]; apply bytes_eqb_spec; reflexivity.
Qed.
Lemma kind_dec (a b : attr_kind) : attr_kind_eqb a b = true <-> a = b.
Proof. destruct a, b; split; intros H; try reflexivity; discriminate H. Qed.

(** The annotations [l] were read from [f]. *)
Definition parsed (f : mfunction) (l : list func_attr) : Prop := Forall2 (fun a x => parse_attr a = Some x) (fn_attrs f) l.
Lemma func_attrs_parsed f l : func_attrs f = Some l <-> parsed f l.
Proof. apply all_some_spec. Qed.
Lemma parse_kind a x : parse_attr a = Some x -> attr_kind_of x = kind_of_name (ra_name a).
Proof.
  unfold parse_attr. destruct (kind_of_name (ra_name a)); destruct (ra_args a); cbn [parse_doc obind]; intros [= <-]; reflexivity.
Qed.
Lemma parse_legal a : (exists x, parse_attr a = Some x) <-> args_legal a.
Proof.
  unfold args_legal, is_named.
  rewrite <- (kind_of_name_spec (ra_name a) KindCtor), <- (kind_of_name_spec (ra_name a) KindEndpoint),
    <- (kind_of_name_spec (ra_name a) KindFundable), <- (kind_of_name_spec (ra_name a) KindHook) by discriminate.
  unfold parse_attr. destruct (kind_of_name (ra_name a)); destruct (ra_args a) eqn:A; cbn [parse_doc obind]; split; intros H;
    try (now (eexists; reflexivity));
    try (destruct H as [? H]; discriminate H);
    try (split; (intros [X|X]; try discriminate X); eauto; fail);
    destruct H as [H1 H2]; exfalso;
    try (destruct (H1 (or_introl eq_refl)) as [X|[X|[? X]]]; discriminate X);
    try (destruct (H1 (or_intror eq_refl)) as [X|[X|[? X]]]; discriminate X);
    try (destruct (H2 (or_introl eq_refl)) as [X|[? X]]; discriminate X);
    try (destruct (H2 (or_intror eq_refl)) as [X|[? X]]; discriminate X).
Qed.
Lemma attrs_legal f : (exists l, func_attrs f = Some l) <-> Forall args_legal (fn_attrs f).
Proof.
  unfold func_attrs. induction (fn_attrs f) as [|a l IH]; cbn [all_some].
  - split; [constructor|]. intros _. eexists; reflexivity.
  - split.
    + intros [r E]. destruct (parse_attr a) as [x|] eqn:Ea; [|discriminate]. cbn [obind] in E.
      destruct (all_some parse_attr l) as [xs|] eqn:El; [|discriminate]. constructor; [apply parse_legal; eauto|apply IH; eauto].
    + intros F. inversion F as [|? ? Fa Fl]; subst. apply parse_legal in Fa. destruct Fa as [x ->]. apply IH in Fl. destruct Fl as [xs ->]. cbn [obind]. eauto.
Qed.

Lemma Forall2_at {A B} (R : A -> B -> Prop) l l' : Forall2 R l l' -> forall i,
  match nth_error l i, nth_error l' i with Some a, Some b => R a b | None, None => True | _, _ => False end.
Proof. induction 1; intros [|i]; cbn; auto. exact (IHForall2 i). Qed.
Lemma parsed_at f l i a : parsed f l -> nth_error (fn_attrs f) i = Some a -> exists x, nth_error l i = Some x /\ parse_attr a = Some x.
Proof. intros P E. pose proof (Forall2_at _ _ _ P i) as Q. rewrite E in Q. destruct (nth_error l i); [eauto|contradiction]. Qed.
Lemma parsed_back f l i x : parsed f l -> nth_error l i = Some x -> exists a, nth_error (fn_attrs f) i = Some a /\ parse_attr a = Some x.
Proof. intros P E. pose proof (Forall2_at _ _ _ P i) as Q. rewrite E in Q. destruct (nth_error (fn_attrs f) i); [eauto|contradiction]. Qed.
Lemma kind_named a x k : k <> KindOther -> parse_attr a = Some x -> (attr_kind_of x = k <-> is_named (kind_name k) a).
Proof. intros Nk E. rewrite (parse_kind a x E). now apply kind_of_name_spec. Qed.

Lemma has_annotated f l k : parsed f l -> k <> KindOther -> (has_attr l k = true <-> annotated (kind_name k) f).
Proof.
  intros P Nk. unfold has_attr, annotated. rewrite existsb_exists. split.
  - intros (x & Ix & Kx). apply kind_dec in Kx. apply In_nth_error in Ix. destruct Ix as [i Ei].
    destruct (parsed_back f l i x P Ei) as (a & Ea & Pa). exists a. split; [eapply nth_error_In; exact Ea|]. now apply (kind_named a x k Nk Pa).
  - intros (a & Ia & Na). apply In_nth_error in Ia. destruct Ia as [i Ei]. destruct (parsed_at f l i a P Ei) as (x & Ex & Px).
    exists x. split; [eapply nth_error_In; exact Ex|]. apply kind_dec. now apply (kind_named a x k Nk Px).
Qed.

Definition cnt (k : attr_kind) (l : list func_attr) : nat := List.length (filter (fun a => attr_kind_eqb (attr_kind_of a) k) l).
Definition saw (s : seen_attrs) (k : attr_kind) : bool :=
  match k with KindCtor => se_ctor s | KindEndpoint => se_endpoint s | KindFundable => se_fundable s | KindHook => se_hook s | KindOther => false end.
Definition b2n (b : bool) : nat := if b then 1%nat else 0%nat.
Lemma four (P : attr_kind -> Prop) : (forall k, k <> KindOther -> P k) <-> P KindCtor /\ P KindEndpoint /\ P KindFundable /\ P KindHook.
Proof. split; [intros H; repeat split; apply H; discriminate|]. intros (A & B & C & D) k Nk. destruct k; auto. contradiction. Qed.
Lemma no_dups_spec l : forall s, no_dups l s = Some tt <-> forall k, k <> KindOther -> (cnt k l + b2n (saw s k) <= 1)%nat.
Proof.
  induction l as [|a l IH]; intros s; cbn [no_dups].
  - split; [|reflexivity]. intros _ k _. unfold cnt. cbn. destruct (saw s k); cbn; lia.
  - assert (C : forall k, cnt k (a :: l) = (b2n (attr_kind_eqb (attr_kind_of a) k) + cnt k l)%nat).
    { intros k. unfold cnt. cbn [filter]. destruct (attr_kind_eqb (attr_kind_of a) k); reflexivity. }
    rewrite four. rewrite !C.
    destruct (attr_kind_of a); cbn [attr_kind_eqb b2n saw]; try (rewrite IH, four; cbn [saw]; lia);
      match goal with |- context [if ?b then None else _] => destruct b eqn:Eb end; cbn [b2n];
      try (split; [discriminate|lia]); rewrite IH, four; cbn [saw se_ctor se_endpoint se_fundable se_hook b2n]; try rewrite Eb; cbn [b2n]; lia.
Qed.
Lemma filter_once {A} (p : A -> bool) l : (List.length (filter p l) <= 1)%nat <->
  forall i j a b, nth_error l i = Some a -> nth_error l j = Some b -> p a = true -> p b = true -> i = j.
Proof.
  induction l as [|x l IH]; [split; [|cbn; lia]; intros _ [|i] j a b E; discriminate E|]. cbn [filter]. destruct (p x) eqn:Px.
  - cbn [List.length]. split.
    + intros L. assert (Em : filter p l = []) by (destruct (filter p l); [reflexivity|cbn in L; lia]).
      assert (No : forall i a, nth_error l i = Some a -> p a = true -> False).
      { intros i a E Pa. assert (I : In a (filter p l)) by (apply filter_In; split; [eapply nth_error_In; exact E|exact Pa]). rewrite Em in I. destruct I. }
      intros [|i] [|j] a b Ea Eb Pa Pb; auto; cbn in Ea, Eb; exfalso; [eapply No; [exact Eb|exact Pb]|eapply No; [exact Ea|exact Pa]|eapply No; [exact Ea|exact Pa]].
    + intros H. destruct (filter p l) as [|y r] eqn:E; [cbn; lia|]. exfalso.
      assert (I : In y (filter p l)) by (rewrite E; now left). apply filter_In in I. destruct I as [I Py]. apply In_nth_error in I. destruct I as [i Ei].
      specialize (H 0%nat (S i) x y eq_refl Ei Px Py). discriminate H.
  - rewrite IH. split.
    + intros H [|i] [|j] a b Ea Eb Pa Pb; auto; cbn in Ea, Eb; [congruence|congruence|]. f_equal. eapply H; eauto.
    + intros H i j a b Ea Eb Pa Pb. specialize (H (S i) (S j) a b Ea Eb Pa Pb). now injection H.
Qed.
Lemma once_spec f l k : parsed f l -> k <> KindOther -> ((cnt k l <= 1)%nat <-> at_most_once (kind_name k) f).
Proof.
  intros P Nk. unfold cnt. rewrite filter_once. unfold at_most_once. split.
  - intros H i j a b Ea Eb Na Nb. destruct (parsed_at f l i a P Ea) as (x & Ex & Px). destruct (parsed_at f l j b P Eb) as (y & Ey & Py).
    apply (H i j x y Ex Ey); apply kind_dec; [now apply (kind_named a x k Nk Px)|now apply (kind_named b y k Nk Py)].
  - intros H i j x y Ex Ey Kx Ky. apply kind_dec in Kx, Ky. destruct (parsed_back f l i x P Ex) as (a & Ea & Pa). destruct (parsed_back f l j y P Ey) as (b & Eb & Pb).
    apply (H i j a b Ea Eb); [now apply (kind_named a x k Nk Pa)|now apply (kind_named b y k Nk Pb)].
Qed.
Lemma order_spec l : forall c e, order l c e = Some tt <->
  (c || e = true -> forall i x, nth_error l i = Some x -> attr_kind_of x <> KindFundable) /\
  (forall i j x y, nth_error l i = Some x -> nth_error l j = Some y -> attr_kind_of x = KindFundable ->
    attr_kind_of y = KindCtor \/ attr_kind_of y = KindEndpoint -> (i < j)%nat).
Proof.
  induction l as [|a l IH]; intros c e; cbn [order].
  - split; [|reflexivity]. intros _. split; [intros _ [|i]; discriminate|intros [|i]; discriminate].
  - destruct (attr_kind_of a) eqn:Ka.
    + rewrite IH. cbn [orb]. split.
      * intros [H1 H2]. split; [intros _ [|i] x E; [injection E as <-; congruence|eapply H1; eauto]|].
        intros [|i] [|j] x y Ex Ey Kx Ky; cbn in Ex, Ey; try lia.
        -- injection Ex as <-. congruence.
        -- exfalso. eapply H1; eauto.
        -- pose proof (H2 i j x y Ex Ey Kx Ky). lia.
      * intros [H1 H2]. split.
        -- intros _ i x E Kx. specialize (H2 (S i) 0%nat x a E eq_refl Kx (or_introl Ka)). lia.
        -- intros i j x y Ex Ey Kx Ky. specialize (H2 (S i) (S j) x y Ex Ey Kx Ky). lia.
    + rewrite IH. rewrite orb_true_r. split.
      * intros [H1 H2]. split; [intros _ [|i] x E; [injection E as <-; congruence|eapply H1; eauto]|].
        intros [|i] [|j] x y Ex Ey Kx Ky; cbn in Ex, Ey; try lia.
        -- injection Ex as <-. congruence.
        -- exfalso. eapply H1; eauto.
        -- pose proof (H2 i j x y Ex Ey Kx Ky). lia.
      * intros [H1 H2]. split.
        -- intros _ i x E Kx. specialize (H2 (S i) 0%nat x a E eq_refl Kx (or_intror Ka)). lia.
        -- intros i j x y Ex Ey Kx Ky. specialize (H2 (S i) (S j) x y Ex Ey Kx Ky). lia.
    + destruct c; [split; [discriminate|intros [H _]; exfalso; exact (H eq_refl 0%nat a eq_refl Ka)]|].
      destruct e; [split; [discriminate|intros [H _]; exfalso; exact (H eq_refl 0%nat a eq_refl Ka)]|].
      rewrite IH. cbn [orb]. split.
      * intros [H1 H2]. split; [discriminate|]. intros [|i] [|j] x y Ex Ey Kx Ky; cbn in Ex, Ey; try lia.
        -- injection Ey as <-. destruct Ky; congruence.
        -- injection Ey as <-. destruct Ky; congruence.
        -- pose proof (H2 i j x y Ex Ey Kx Ky). lia.
      * intros [H1 H2]. split; [discriminate|]. intros i j x y Ex Ey Kx Ky. specialize (H2 (S i) (S j) x y Ex Ey Kx Ky). lia.
    + rewrite IH. split.
      * intros [H1 H2]. split; [intros Q [|i] x E; [injection E as <-; congruence|eapply H1; eauto]|].
        intros [|i] [|j] x y Ex Ey Kx Ky; cbn in Ex, Ey; try lia.
        -- injection Ex as <-. congruence.
        -- injection Ey as <-. destruct Ky; congruence.
        -- pose proof (H2 i j x y Ex Ey Kx Ky). lia.
      * intros [H1 H2]. split; [intros Q i x E; exact (H1 Q (S i) x E)|]. intros i j x y Ex Ey Kx Ky. specialize (H2 (S i) (S j) x y Ex Ey Kx Ky). lia.
    + rewrite IH. split.
      * intros [H1 H2]. split; [intros Q [|i] x E; [injection E as <-; congruence|eapply H1; eauto]|].
        intros [|i] [|j] x y Ex Ey Kx Ky; cbn in Ex, Ey; try lia.
        -- injection Ex as <-. congruence.
        -- injection Ey as <-. destruct Ky; congruence.
        -- pose proof (H2 i j x y Ex Ey Kx Ky). lia.
      * intros [H1 H2]. split; [intros Q i x E; exact (H1 Q (S i) x E)|]. intros i j x y Ex Ey Kx Ky. specialize (H2 (S i) (S j) x y Ex Ey Kx Ky). lia.
Qed.
Lemma order_above f l : parsed f l -> (order l false false = Some tt <-> above "fundable" "ctor" f /\ above "fundable" "endpoint" f).
Proof.
  intros P. rewrite order_spec. cbn [orb]. split.
  - intros [_ H]. split; intros i j a b Ea Eb Na Nb; destruct (parsed_at f l i a P Ea) as (x & Ex & Px); destruct (parsed_at f l j b P Eb) as (y & Ey & Py);
      apply (H i j x y Ex Ey); [now apply (kind_named a x KindFundable ltac:(discriminate) Px)|left; now apply (kind_named b y KindCtor ltac:(discriminate) Py)
        |now apply (kind_named a x KindFundable ltac:(discriminate) Px)|right; now apply (kind_named b y KindEndpoint ltac:(discriminate) Py)].
  - intros [H1 H2]. split; [discriminate|]. intros i j x y Ex Ey Kx Ky. destruct (parsed_back f l i x P Ex) as (a & Ea & Pa). destruct (parsed_back f l j y P Ey) as (b & Eb & Pb).
    apply (kind_named a x KindFundable) in Kx; [|discriminate|exact Pa].
    destruct Ky as [Ky|Ky]; [apply (kind_named b y KindCtor) in Ky; [|discriminate|exact Pb]; exact (H1 i j a b Ea Eb Kx Ky)
      |apply (kind_named b y KindEndpoint) in Ky; [|discriminate|exact Pb]; exact (H2 i j a b Ea Eb Kx Ky)].
Qed.

Lemma ensure_true b : ensure b = Some tt <-> b = true.
Proof. unfold ensure. destruct b; split; intros H; try reflexivity; discriminate H. Qed.
Lemma unit_bind {A} (o : option unit) (k : option A) r : (let? _ := o in k) = Some r <-> o = Some tt /\ k = Some r.
Proof. destruct o as [[]|]; cbn [obind]; split; [auto|now intros [_ H]|discriminate|now intros [H _]]. Qed.

(** The rules about annotations alone. *)
Definition attrs_rules (f : mfunction) : Prop :=
  (at_most_once "ctor" f /\ at_most_once "endpoint" f /\ at_most_once "fundable" f /\ at_most_once "fundable_hook" f) /\
  ~ (annotated "ctor" f /\ annotated "endpoint" f) /\ ~ (annotated "endpoint" f /\ annotated "fundable_hook" f) /\
  ~ (annotated "fundable" f /\ annotated "fundable_hook" f) /\ (annotated "fundable" f -> entry f) /\
  (above "fundable" "ctor" f /\ above "fundable" "endpoint" f).
Lemma validate_rules f l : parsed f l -> (validate_attrs l = Some tt <-> attrs_rules f).
Proof.
  intros P. unfold validate_attrs, attrs_rules, entry. rewrite !unit_bind, no_dups_spec, four, (order_above f l P).
  cbn [saw nothing_seen se_ctor se_endpoint se_fundable se_hook b2n].
  rewrite <- (once_spec f l KindCtor P ltac:(discriminate)), <- (once_spec f l KindEndpoint P ltac:(discriminate)),
    <- (once_spec f l KindFundable P ltac:(discriminate)), <- (once_spec f l KindHook P ltac:(discriminate)).
  assert (U : usage l = Some tt <-> ~ (annotated "ctor" f /\ annotated "endpoint" f) /\ ~ (annotated "endpoint" f /\ annotated "fundable_hook" f) /\
    ~ (annotated "fundable" f /\ annotated "fundable_hook" f) /\ (annotated "fundable" f -> annotated "ctor" f \/ annotated "endpoint" f)).
  { unfold usage. rewrite !unit_bind, !ensure_true.
    rewrite <- (has_annotated f l KindCtor P ltac:(discriminate)), <- (has_annotated f l KindEndpoint P ltac:(discriminate)),
      <- (has_annotated f l KindFundable P ltac:(discriminate)), <- (has_annotated f l KindHook P ltac:(discriminate)).
    destruct (has_attr l KindCtor), (has_attr l KindEndpoint), (has_attr l KindFundable), (has_attr l KindHook); cbn; intuition discriminate. }
  rewrite U. intuition lia.
Qed.

(* ------------------------------------------------------------------------- *)
(** ** Types *)
Lemma written_legal_spec w : written_new w = Some tt <-> written_legal w.
Proof.
  unfold written_new, written_legal. rewrite ensure_true. destruct (wt_prefix w), (wt_type w); cbn; split; intros H; auto; try discriminate; try discriminate H;
    destruct (H eq_refl) as [X|X]; discriminate X.
Qed.
Lemma base_legal_spec b : base_new b = Some tt <-> base_legal b.
Proof.
  destruct b as [w|w n]; cbn [base_new base_legal]; [apply written_legal_spec|]. rewrite unit_bind, ensure_true, written_legal_spec. unfold u32_max. change (2 ^ 32) with 4294967296. split; intros [A B]; (split; [exact A|lia]).
Qed.
Lemma type_legal_spec t : type_new t = Some tt <-> type_legal t.
Proof.
  destruct t as [b|bs]; cbn [type_new type_legal]; [apply base_legal_spec|]. induction bs as [|b bs IH]; cbn [bases_new]; [split; [constructor|reflexivity]|].
  rewrite unit_bind, base_legal_spec, IH. split; [intros [A B]; constructor; auto|]. intros F. inversion F. auto.
Qed.
Lemma all_units {A} (p : A -> option unit) l : (exists r, all_some p l = Some r) <-> Forall (fun x => p x = Some tt) l.
Proof.
  induction l as [|x l IH]; cbn [all_some]; [split; [constructor|intros _; eexists; reflexivity]|]. split.
  - intros [r E]. destruct (p x) as [[]|] eqn:Ex; [|discriminate]. cbn [obind] in E. destruct (all_some p l) as [ys|] eqn:El; [|discriminate]. constructor; [exact Ex|]. apply IH. eauto.
  - intros F. inversion F as [|? ? Fa Fl]; subst. rewrite Fa. apply IH in Fl. destruct Fl as [ys ->]. cbn [obind]. eauto.
Qed.
Lemma sig_legal f : function_sig f = Some tt <-> Forall (fun p => type_legal (snd p)) (fn_params f) /\ (forall t, fn_output f = Some t -> type_legal t).
Proof.
  unfold function_sig. assert (P : Forall (fun p : bytes * mtype => type_legal (snd p)) (fn_params f) <-> Forall (fun p => type_new (snd p) = Some tt) (fn_params f)).
  { split; intros F; eapply Forall_impl; try exact F; intros p; apply type_legal_spec. }
  rewrite P, <- (all_units (fun p : bytes * mtype => type_new (snd p))). split.
  - intros E. destruct (all_some (fun p => type_new (snd p)) (fn_params f)) as [r|]; [|discriminate]. cbn [obind] in E. split; [eauto|]. intros t Et. rewrite Et in E. now apply type_legal_spec.
  - intros [[r ->] O]. cbn [obind]. destruct (fn_output f) as [t|]; [|reflexivity]. apply type_legal_spec. now apply O.
Qed.
Lemma validate_sig_spec f : validate_sig f = Some tt <-> fn_odd f = false /\ Forall (fun p => exists b, snd p = MBase b) (fn_params f).
Proof.
  unfold validate_sig. rewrite unit_bind, !ensure_true, forallb_forall, Forall_forall. split.
  - intros [A B]. split; [now destruct (fn_odd f)|]. intros p Ip. specialize (B p Ip). destruct (snd p); [eauto|discriminate].
  - intros [A B]. split; [now rewrite A|]. intros p Ip. destruct (B p Ip) as [b ->]. reflexivity.
Qed.

(* ------------------------------------------------------------------------- *)
(** ** Expanding *)
Lemma default_spec f l : parsed f l -> (has_default_hook l = true <-> default_for_funds f).
Proof.
  intros P. unfold has_default_hook, default_for_funds. rewrite existsb_exists. split.
  - intros (x & Ix & Dx). apply In_nth_error in Ix. destruct Ix as [i Ei]. destruct (parsed_back f l i x P Ei) as (a & Ea & Pa).
    destruct x as [| | |d|]; try discriminate Dx. subst d. exists a.
    assert (Ka : is_named (kind_name KindHook) a) by now apply (kind_named a (AHook true) KindHook ltac:(discriminate) Pa).
    unfold parse_attr in Pa. apply (kind_of_name_spec _ KindHook) in Ka as Kn; [|discriminate]. rewrite Kn in Pa.
    destruct (ra_args a) as [| | |s|] eqn:Ar; try discriminate Pa. exists s. split; [eapply nth_error_In; exact Ea|auto].
  - intros (a & s & Ia & Na & Ar). apply In_nth_error in Ia. destruct Ia as [i Ei]. destruct (parsed_at f l i a P Ei) as (x & Ex & Px).
    exists x. split; [eapply nth_error_In; exact Ex|]. apply (kind_of_name_spec _ KindHook) in Na; [|discriminate]. unfold parse_attr in Px. rewrite Na, Ar in Px. now injection Px as <-.
Qed.
Definition defaultb (f : mfunction) : bool := match func_attrs f with Some l => has_default_hook l | None => false end.
Definition parses (f : mfunction) : Prop := exists l, func_attrs f = Some l.
Lemma defaultb_spec f : parses f -> (defaultb f = true <-> default_for_funds f).
Proof. intros [l E]. unfold defaultb. rewrite E. apply default_spec. now apply func_attrs_parsed. Qed.
Lemma default_hook_spec fs : forall seen d, default_hook fs seen = Some d <->
  Forall parses fs /\ (List.length (filter defaultb fs) + b2n (match seen with Some _ => true | None => false end) <= 1)%nat /\
  d = match seen with Some s => Some s | None => option_map fn_name (find defaultb fs) end.
Proof.
  induction fs as [|f fs IH]; intros seen d; cbn [default_hook].
  - cbn [filter find option_map List.length]. split.
    + intros [= <-]. split; [constructor|]. split; [destruct seen; cbn; lia|now destruct seen].
    + intros (_ & _ & ->). now destruct seen.
  - destruct (func_attrs f) as [l|] eqn:E; cbn [obind].
    2:{ split; [discriminate|]. intros (F & _). inversion F as [|? ? [l El] ?]; subst. congruence. }
    assert (Pf : parses f) by (exists l; exact E).
    assert (Df : defaultb f = has_default_hook l) by (unfold defaultb; now rewrite E).
    cbn [filter find]. rewrite Df. destruct (has_default_hook l).
    + cbn [List.length option_map]. destruct seen as [s|]; cbn [b2n]; [split; [discriminate|lia]|]. rewrite IH. cbn [b2n].
      split.
      * intros (A & B & ->). split; [constructor; auto|]. split; [lia|reflexivity].
      * intros (A & B & ->). inversion A. split; [assumption|]. split; [lia|reflexivity].
    + rewrite IH. split.
      * intros (A & B & ->). split; [constructor; auto|]. auto.
      * intros (A & B & ->). inversion A. auto.
Qed.

Lemma expand_function_rules d f i : expand_function d f = Some i ->
  exists l, parsed f l /\ attrs_rules f /\
  ((entry f /\ validate_sig f = Some tt /\ (if has_attr l KindFundable then exists h, fundable_hook l d = Some h /\ i = IEntry (fn_name f) (Some h) else i = IEntry (fn_name f) None))
   \/ (~ entry f /\ annotated "fundable_hook" f /\ fn_params f = [] /\ fn_output f = None /\ i = IHook (fn_name f))
   \/ (~ entry f /\ ~ annotated "fundable_hook" f /\ i = IPlain (fn_name f))).
Proof.
  unfold expand_function. intros E. destruct (func_attrs f) as [l|] eqn:El; [|discriminate]. cbn [obind] in E. apply func_attrs_parsed in El. exists l. split; [exact El|].
  apply unit_bind in E. destruct E as [V E]. apply (validate_rules f l El) in V. split; [exact V|].
  assert (Ee : forall b, expand_endpoint f l d = Some i -> entry f -> b = true -> entry f /\ validate_sig f = Some tt /\ (if has_attr l KindFundable then exists h, fundable_hook l d = Some h /\ i = IEntry (fn_name f) (Some h) else i = IEntry (fn_name f) None)).
  { intros b X Y _. unfold expand_endpoint in X. apply unit_bind in X. destruct X as [X1 X2]. split; [exact Y|]. split; [exact X1|].
    destruct (has_attr l KindFundable); [|now injection X2 as <-]. destruct (fundable_hook l d) as [h|]; [|discriminate]. cbn [obind] in X2. injection X2 as <-. eauto. }
  destruct (has_attr l KindCtor) eqn:Hc.
  { left. apply (Ee true E); [|reflexivity]. left. now apply (has_annotated f l KindCtor El). }
  destruct (has_attr l KindEndpoint) eqn:He.
  { left. apply (Ee true E); [|reflexivity]. right. now apply (has_annotated f l KindEndpoint El). }
  assert (Ne : ~ entry f).
  { intros [X|X]; [apply (has_annotated f l KindCtor El) in X|apply (has_annotated f l KindEndpoint El) in X]; congruence. }
  right. destruct (has_attr l KindHook) eqn:Hh.
  - left. split; [exact Ne|]. split; [now apply (has_annotated f l KindHook El)|]. unfold expand_hook in E. destruct (fn_params f); [|discriminate]. destruct (fn_output f); [discriminate|]. injection E as <-. auto.
  - right. split; [exact Ne|]. split; [intros X; apply (has_annotated f l KindHook El) in X; congruence|]. now injection E as <-.
Qed.
Lemma find_kind l k : match find_attr l k with Some x => attr_kind_of x = k /\ In x l | None => has_attr l k = false end.
Proof.
  unfold find_attr, has_attr. destruct (find _ l) as [x|] eqn:E.
  - apply find_some in E. destruct E as [I K]. apply kind_dec in K. auto.
  - destruct (existsb _ l) eqn:X; [|reflexivity]. apply existsb_exists in X. destruct X as (x & I & K). pose proof (find_none _ _ E x I) as Q. cbn in Q. congruence.
Qed.
Lemma fundable_defined l d : has_attr l KindFundable = true -> exists h, fundable_hook l d = Some h.
Proof.
  intros H. unfold fundable_hook. pose proof (find_kind l KindFundable) as Q. destruct (find_attr l KindFundable) as [x|]; [|congruence].
  destruct x as [| |[h|]| |]; destruct Q as [Q _]; try discriminate Q; eauto.
Qed.
Lemma entry_dec f l : parsed f l -> {entry f} + {~ entry f}.
Proof.
  intros P. destruct (has_attr l KindCtor) eqn:A; [left; left; now apply (has_annotated f l KindCtor P)|].
  destruct (has_attr l KindEndpoint) eqn:B; [left; right; now apply (has_annotated f l KindEndpoint P)|].
  right. intros [X|X]; [apply (has_annotated f l KindCtor P) in X|apply (has_annotated f l KindEndpoint P) in X]; congruence.
Qed.
Lemma expand_function_defined d f : (exists i, expand_function d f = Some i) <->
  parses f /\ attrs_rules f /\ (entry f -> validate_sig f = Some tt) /\
  (annotated "fundable_hook" f -> ~ entry f -> fn_params f = [] /\ fn_output f = None).
Proof.
  split.
  - intros [i E]. destruct (expand_function_rules d f i E) as (l & P & R & C). split; [exists l; now apply func_attrs_parsed|]. split; [exact R|].
    destruct C as [(A & B & _)|[(A & B & C & D & _)|(A & B & _)]]; (split; [try (intros X; contradiction); auto|intros X Y; try contradiction; auto]).
  - intros ([l El] & R & V & H). pose proof (proj1 (func_attrs_parsed f l) El) as P. unfold expand_function. rewrite El. cbn [obind]. rewrite (proj2 (validate_rules f l P) R). cbn [obind].
    assert (Ee : entry f -> exists i, expand_endpoint f l d = Some i).
    { intros X. unfold expand_endpoint. rewrite (V X). cbn [obind]. destruct (has_attr l KindFundable) eqn:Hf; [|eauto]. destruct (fundable_defined l d Hf) as [h ->]. cbn [obind]. eauto. }
    destruct (has_attr l KindCtor) eqn:Hc; [apply Ee; left; now apply (has_annotated f l KindCtor P)|].
    destruct (has_attr l KindEndpoint) eqn:He; [apply Ee; right; now apply (has_annotated f l KindEndpoint P)|].
    destruct (has_attr l KindHook) eqn:Hh; [|eauto].
    assert (X : annotated "fundable_hook" f) by now apply (has_annotated f l KindHook P).
    destruct (H X) as [Hp Ho].
    { intros [Y|Y]; [apply (has_annotated f l KindCtor P) in Y|apply (has_annotated f l KindEndpoint P) in Y]; congruence. }
    unfold expand_hook. rewrite Hp, Ho. eauto.
Qed.

(* ------------------------------------------------------------------------- *)
(** ** Storage *)
Lemma field_of_spec p : (exists r, field_of p = Some r) <-> exists b, snd p = MBase b /\ base_legal b.
Proof.
  unfold field_of. destruct p as [n t]. cbn [snd fst]. split.
  - intros [r E]. apply unit_bind in E. destruct E as [E X]. apply type_legal_spec in E. destruct t as [b|bs]; [|discriminate X]. eauto.
  - intros (b & -> & L). cbn [type_new]. rewrite (proj2 (base_legal_spec b) L). cbn [obind]. destruct b; eauto.
Qed.
Definition one_type (p : bytes * mtype) : list field_type :=
  match snd p with MBase (BPrim w) => [FPrim (wt_type w)] | MBase (BArray w n) => [FArray (wt_type w) n] | MTuple _ => [] end.
Lemma field_of_type p n w f : field_of p = Some (n, w, f) -> n = fst p /\ one_type p = [f] /\ wt_type w = field_prim f /\ written_legal w.
Proof.
  unfold field_of, one_type. destruct p as [m t]. cbn [snd fst]. intros E. apply unit_bind in E. destruct E as [E X]. apply type_legal_spec in E.
  destruct t as [[w'|w' k]|bs]; [| |discriminate X]; injection X as <- <- <-; cbn in E; repeat split; tauto.
Qed.
Lemma fields_types s fs : all_some field_of (ms_fields s) = Some fs -> map snd fs = field_types s.
Proof.
  unfold field_types. revert fs. induction (ms_fields s) as [|p l IH]; intros fs E; cbn [all_some] in E; [now injection E as <-|].
  destruct (field_of p) as [[[n w] f]|] eqn:Ep; [|discriminate]. cbn [obind] in E. destruct (all_some field_of l) as [r|] eqn:El; [|discriminate]. injection E as <-.
  cbn [map snd flat_map]. rewrite (IH r eq_refl). destruct (field_of_type _ _ _ _ Ep) as (_ & T & _). unfold one_type in T. rewrite T. reflexivity.
Qed.
Lemma storage_defined fs : forall id offset, id + count_cells fs <= u32_max -> offset + count_bytes fs <= u64_max -> exists vs, storage_vars_from fs id offset = Some vs.
Proof.
  induction fs as [|f fs IH]; intros id offset Hi Ho; cbn [storage_vars_from]; [eauto|].
  cbn [count_cells count_bytes fold_right] in Hi, Ho. fold (count_cells fs) in Hi. fold (count_bytes fs) in Ho.
  assert (Sz : sv_byte_count (field_var f id offset) = type_size (field_prim f)) by (destruct f as [[]|[] n]; reflexivity).
  destruct f as [t|t n]; rewrite Sz; unfold macro_usize, macro_u32; cbn [field_cells field_prim] in *.
  - destruct (N.leb_spec (offset + type_size t) u64_max); [|lia]. cbn [obind]. destruct (N.leb_spec (id + 1) u32_max); [|lia]. cbn [obind].
    destruct (IH (id + 1) (offset + type_size t)) as [vs ->]; [lia|lia|]. cbn [obind]. eauto.
  - destruct (N.leb_spec (type_size t * n) u64_max); [|lia]. cbn [obind]. destruct (N.leb_spec (offset + type_size t * n) u64_max); [|lia]. cbn [obind].
    destruct (N.leb_spec (id + n) u32_max); [|lia]. cbn [obind]. destruct (IH (id + n) (offset + type_size t * n)) as [vs ->]; [lia|lia|]. cbn [obind]. eauto.
Qed.
Lemma bytes_bound fs : count_bytes fs <= 20 * count_cells fs.
Proof.
  induction fs as [|f fs IH]; [cbn; lia|]. cbn [count_cells count_bytes fold_right]. fold (count_cells fs) (count_bytes fs).
  assert (type_size (field_prim f) <= 20) by (destruct (field_prim f); cbn; lia). nia.
Qed.
Lemma storage_iff fs : (exists vs, storage_vars fs = Some vs) <-> count_cells fs < 2 ^ 32.
Proof.
  change (2 ^ 32) with 4294967296. split.
  - intros [vs E]. destruct fs as [|f fs]; [cbn; lia|]. pose proof (storage_ids_fit (f :: fs) 0 0 vs E ltac:(discriminate)) as Q. unfold u32_max in Q. lia.
  - intros L. pose proof (bytes_bound fs). apply storage_defined; unfold u32_max, u64_max; lia.
Qed.
Lemma struct_vars_spec s : (exists vs, struct_vars s = Some vs) <->
  ms_odd s = false /\ Forall (fun p => exists b, snd p = MBase b /\ base_legal b) (ms_fields s) /\ count_cells (field_types s) < 2 ^ 32.
Proof.
  assert (F : (exists r, all_some field_of (ms_fields s) = Some r) <-> Forall (fun p => exists b, snd p = MBase b /\ base_legal b) (ms_fields s)).
  { induction (ms_fields s) as [|p l IH]; cbn [all_some]; [split; [constructor|eauto]|]. split.
    - intros [r E]. destruct (field_of p) as [x|] eqn:Ep; [|discriminate]. cbn [obind] in E. destruct (all_some field_of l) as [ys|] eqn:El; [|discriminate].
      constructor; [apply field_of_spec; eauto|apply IH; eauto].
    - intros X. inversion X as [|? ? A B]; subst. apply field_of_spec in A. destruct A as [x ->]. apply IH in B. destruct B as [ys ->]. cbn [obind]. eauto. }
  rewrite <- F, <- storage_iff. unfold struct_vars. split.
  - intros [vs E]. apply unit_bind in E. destruct E as [O E]. apply ensure_true in O. split; [now destruct (ms_odd s)|].
    destruct (all_some field_of (ms_fields s)) as [fs|] eqn:Ef; [|discriminate]. cbn [obind] in E. split; [eauto|]. rewrite <- (fields_types s fs Ef).
    destruct (storage_vars (map snd fs)) as [v|]; [eauto|discriminate].
  - intros (-> & [fs Ef] & [vs Ev]). cbn [negb ensure obind]. rewrite Ef. cbn [obind]. rewrite (fields_types s fs Ef), Ev. cbn [obind]. eauto.
Qed.
Lemma validate_structs_spec l : forall seen, validate_structs l seen = Some tt <-> (List.length (filter ms_storage l) + b2n seen <= 1)%nat.
Proof.
  induction l as [|s l IH]; intros seen; cbn [validate_structs filter]; [split; [destruct seen; cbn; lia|reflexivity]|].
  destruct (ms_storage s); cbn [List.length].
  - destruct seen; cbn [b2n]; [split; [discriminate|lia]|]. rewrite IH. cbn [b2n]. lia.
  - apply IH.
Qed.
Lemma filter_every {A} (p : A -> bool) l : Forall (fun x => p x = true) l -> filter p l = l.
Proof. induction 1 as [|x l H F IH]; cbn; [reflexivity|]. now rewrite H, IH. Qed.
Lemma filter_shorter {A} (p : A -> bool) l : (List.length (filter p l) <= List.length l)%nat.
Proof. induction l as [|x l IH]; cbn; [lia|]. destruct (p x); cbn; lia. Qed.
Lemma expand_structs_spec l : (exists r, expand_structs l = Some r) <-> Forall legal_struct l /\ (List.length l <= 1)%nat.
Proof.
  assert (F : (exists r, all_some expand_struct l = Some r) <-> Forall legal_struct l).
  { induction l as [|s l IH]; cbn [all_some]; [split; [constructor|eauto]|].
    assert (Es : (exists vs, expand_struct s = Some vs) <-> legal_struct s).
    { unfold expand_struct. destruct (ms_storage s) eqn:St.
      - rewrite struct_vars_spec. split; [intros (A & B & C); now constructor|intros [_ A B C]; auto].
      - split; [intros [? X]; discriminate X|]. intros [A _ _ _]. congruence. }
    split.
    - intros [r E]. destruct (expand_struct s) as [x|] eqn:Ep; [|discriminate]. cbn [obind] in E. destruct (all_some expand_struct l) as [ys|] eqn:El; [|discriminate].
      constructor; [apply Es; eauto|apply IH; eauto].
    - intros X. inversion X as [|? ? A B]; subst. apply Es in A. destruct A as [x ->]. apply IH in B. destruct B as [ys ->]. cbn [obind]. eauto. }
  rewrite <- F. unfold expand_structs. split.
  - intros [r E]. apply unit_bind in E. destruct E as [V E]. apply validate_structs_spec in V. cbn [b2n] in V. split; [eauto|].
    assert (X : Forall legal_struct l) by (apply F; eauto). rewrite (filter_every ms_storage l) in V; [lia|]. eapply Forall_impl; [|exact X]. intros s [A _ _ _]. exact A.
  - intros [[r E] L]. exists r. apply unit_bind. split; [|exact E]. apply validate_structs_spec. pose proof (filter_shorter ms_storage l). cbn. lia.
Qed.

(* ------------------------------------------------------------------------- *)
(** ** Exports *)
Definition entryb (f : mfunction) : bool := match func_attrs f with Some l => is_entry l | None => false end.
Lemma is_entry_spec f l : parsed f l -> (is_entry l = true <-> entry f).
Proof.
  intros P. unfold is_entry, entry. rewrite orb_true_iff, (has_annotated f l KindEndpoint P), (has_annotated f l KindCtor P) by discriminate. cbn [kind_name]. tauto.
Qed.
Lemma entryb_spec f : parses f -> (entryb f = true <-> entry f).
Proof. intros [l E]. unfold entryb. rewrite E. apply is_entry_spec. now apply func_attrs_parsed. Qed.
Lemma export_schema_spec f l : func_attrs f = Some l -> is_entry l = true -> function_sig f = Some tt ->
  exists doc, export_schema f = Some (mkExport (has_attr l KindCtor) (has_attr l KindFundable) (fn_name f) (fn_name f) (fn_params f) (fn_output f) doc)
    /\ documented f doc.
Proof.
  intros E I S. pose proof (proj1 (func_attrs_parsed f l) E) as P. unfold export_schema. rewrite E. cbn [obind].
  set (k := if has_attr l KindCtor then KindCtor else KindEndpoint).
  assert (Hk : has_attr l k = true).
  { unfold k, is_entry in *. destruct (has_attr l KindCtor) eqn:C; [exact C|]. now rewrite orb_false_r in I. }
  pose proof (find_kind l k) as Q. destruct (find_attr l k) as [x|]; [|congruence]. destruct Q as [Kx Ix]. cbn [obind].
  apply In_nth_error in Ix. destruct Ix as [i Ei]. destruct (parsed_back f l i x P Ei) as (a & Ea & Pa).
  assert (Nk : k <> KindOther) by (unfold k; destruct (has_attr l KindCtor); discriminate).
  assert (Na : is_named "ctor" a \/ is_named "endpoint" a).
  { apply (kind_named a x k Nk Pa) in Kx. unfold k in Kx. destruct (has_attr l KindCtor); auto. }
  assert (D : exists d, x = (if has_attr l KindCtor then ACtor d else AEndpoint d) /\ parse_doc (ra_args a) = Some d).
  { unfold parse_attr in Pa. assert (Kn : kind_of_name (ra_name a) = k) by (rewrite <- (parse_kind a x Pa); exact Kx). rewrite Kn in Pa. unfold k in Pa.
    destruct (has_attr l KindCtor); destruct (parse_doc (ra_args a)) as [d|]; try discriminate Pa; cbn [obind] in Pa; injection Pa as <-; eauto. }
  destruct D as (d & -> & D). exists (match d with Some s => s | None => [] end). split.
  - destruct (has_attr l KindCtor); cbn [obind]; rewrite S; reflexivity.
  - exists a. split; [eapply nth_error_In; exact Ea|]. split; [exact Na|].
    destruct (ra_args a); try discriminate D; injection D as <-; [right; split; [reflexivity|discriminate]|right; split; [reflexivity|discriminate]|now left].
Qed.
Lemma export_schema_sig f x : export_schema f = Some x -> function_sig f = Some tt.
Proof.
  unfold export_schema. destruct (func_attrs f) as [l|]; [|discriminate]. cbn [obind]. destruct (find_attr _ _) as [a|]; [|discriminate]. cbn [obind].
  destruct (match a with ACtor d | AEndpoint d => _ | _ => _ end) as [d|]; [|discriminate]. cbn [obind]. destruct (function_sig f) as [[]|]; [reflexivity|discriminate].
Qed.
Definition export_ok (f : mfunction) : Prop := parses f /\ (entry f -> function_sig f = Some tt).
Lemma exports_defined fs : forall acc, (exists r, exports_of fs acc = Some r) <-> Forall export_ok fs.
Proof.
  induction fs as [|f fs IH]; intros acc; cbn [exports_of]; [split; [constructor|eauto]|]. split.
  - intros [r E]. destruct (func_attrs f) as [l|] eqn:El; [|discriminate]. cbn [obind] in E. pose proof (proj1 (func_attrs_parsed f l) El) as P.
    destruct (is_entry l) eqn:Ie.
    + destruct (export_schema f) as [x|] eqn:Ex; [|discriminate]. cbn [obind] in E. constructor; [|eapply IH; eauto]. split; [exists l; exact El|]. intros _. now apply export_schema_sig with x.
    + constructor; [|eapply IH; eauto]. split; [exists l; exact El|]. intros X. apply (is_entry_spec f l P) in X. congruence.
  - intros F. inversion F as [|? ? [[l El] S] Fl]; subst. rewrite El. cbn [obind]. pose proof (proj1 (func_attrs_parsed f l) El) as P.
    destruct (is_entry l) eqn:Ie; [|now apply IH]. destruct (export_schema_spec f l El Ie) as (d & -> & _); [apply S; now apply (is_entry_spec f l P)|]. cbn [obind]. now apply IH.
Qed.
Definition empty_export : export := mkExport false false [] [] [] None [].
Definition export_of (f : mfunction) : export := match export_schema f with Some x => x | None => empty_export end.
Lemma insert_export_new x l : ~ In (ex_name x) (map ex_name l) -> insert_export x l = l ++ [x].
Proof.
  induction l as [|y l IH]; intros N; cbn [insert_export app]; [reflexivity|]. cbn [map In] in N. destruct (bytes_eqb (ex_name y) (ex_name x)) eqn:E; [apply bytes_eqb_spec in E; tauto|].
  rewrite IH; tauto.
Qed.
Lemma exports_value fs : forall acc r, NoDup (map ex_name acc ++ map fn_name fs) -> exports_of fs acc = Some r -> r = acc ++ map export_of (filter entryb fs).
Proof.
  induction fs as [|f fs IH]; intros acc r D E; cbn [exports_of] in E; [injection E as <-; cbn; now rewrite app_nil_r|].
  assert (F : export_ok f) by (assert (X : Forall export_ok (f :: fs)) by (apply (exports_defined (f :: fs) acc); cbn [exports_of]; eauto); now inversion X).
  destruct F as [[l El] S]. rewrite El in E. cbn [obind] in E. pose proof (proj1 (func_attrs_parsed f l) El) as P. cbn [filter]. unfold entryb at 1. rewrite El.
  cbn [map] in D. destruct (is_entry l) eqn:Ie.
  - destruct (export_schema_spec f l El Ie) as (d & Ex & _); [apply S; now apply (is_entry_spec f l P)|]. rewrite Ex in E. cbn [obind] in E.
    rewrite insert_export_new in E.
    + apply IH in E; [|rewrite map_app; cbn [map ex_name]; now rewrite <- app_assoc]. rewrite E. rewrite <- app_assoc. cbn [map app]. unfold export_of at 2. now rewrite Ex.
    + cbn [ex_name]. intros X. apply NoDup_remove_2 in D. apply D. apply in_or_app. now left.
  - apply IH in E; [exact E|]. now apply NoDup_remove_1 in D.
Qed.

(* ------------------------------------------------------------------------- *)
(** ** Acceptance *)
Lemma legal_function_iff d f : ((exists i, expand_function d f = Some i) /\ export_ok f) <-> legal_function f.
Proof.
  rewrite expand_function_defined. unfold export_ok. split.
  - intros ((P & R & V & H) & _ & S). destruct R as (R1 & R2 & R3 & R4 & R5 & R6).
    constructor; auto; [now apply attrs_legal| |].
    + intros X. specialize (V X). specialize (S X). apply validate_sig_spec in V. apply sig_legal in S. destruct V as [V1 V2], S as [S1 S2]. split; [exact V1|]. split; [|exact S2].
      rewrite Forall_forall in *. intros p Ip. destruct (V2 p Ip) as [b B]. exists b. split; [exact B|]. specialize (S1 p Ip). now rewrite B in S1.
    + intros X Y. apply H; [exact X|]. intros [Z|Z]; [contradiction|]. apply R3. auto.
  - intros [A O C1 C2 C3 C4 C5 E H]. apply attrs_legal in A. split.
    + split; [exact A|]. split; [repeat split; tauto|]. split.
      * intros X. destruct (E X) as (E1 & E2 & _). apply validate_sig_spec. split; [exact E1|]. eapply Forall_impl; [|exact E2]. intros p (b & B & _). eauto.
      * intros X Y. apply H; [exact X|]. intros Z. apply Y. now left.
    + split; [exact A|]. intros X. destruct (E X) as (_ & E2 & E3). apply sig_legal. split; [|exact E3]. eapply Forall_impl; [|exact E2]. intros p (b & B & L). now rewrite B.
Qed.
Lemma all_defined {A B} (p : A -> option B) l : (exists r, all_some p l = Some r) <-> Forall (fun x => exists y, p x = Some y) l.
Proof.
  induction l as [|x l IH]; cbn [all_some]; [split; [constructor|intros _; eexists; reflexivity]|]. split.
  - intros [r E]. destruct (p x) as [y|] eqn:Ex; [|discriminate]. cbn [obind] in E. destruct (all_some p l) as [ys|] eqn:El; [|discriminate]. constructor; [eauto|]. apply IH. eauto.
  - intros F. inversion F as [|? ? [y Fa] Fl]; subst. rewrite Fa. apply IH in Fl. destruct Fl as [ys ->]. cbn [obind]. eauto.
Qed.
Lemma macro_expand_inv ord t g m : macro_expand ord t = Some (g, m) ->
  exists d schema exports structs items,
  default_hook (tp_functions t) None = Some d /\ template_schema t = Some schema /\ exports_of (tp_functions t) [] = Some exports /\
  expand_structs (tp_structs t) = Some structs /\ all_some (expand_function d) (tp_functions t) = Some items /\
  g = mkGenerated items (match d with Some _ => false | None => true end) structs /\ m = mkMeta schema (ord exports).
Proof.
  unfold macro_expand, template_meta. intros E.
  destruct (default_hook (tp_functions t) None) as [d|]; [|discriminate]. cbn [obind] in E.
  destruct (template_schema t) as [schema|]; [|discriminate]. cbn [obind] in E.
  destruct (exports_of (tp_functions t) []) as [exports|]; [|discriminate]. cbn [obind] in E.
  destruct (expand_structs (tp_structs t)) as [structs|]; [|discriminate]. cbn [obind] in E.
  destruct (all_some (expand_function d) (tp_functions t)) as [items|] eqn:Ei; [|discriminate]. cbn [obind] in E. injection E as <- <-.
  exists d, schema, exports, structs, items. repeat split; auto.
Qed.
Lemma accepted ord t : (exists r, macro_expand ord t = Some r) <-> legal_template t.
Proof.
  split.
  - intros [[g m] E]. destruct (macro_expand_inv ord t g m E) as (d & schema & exports & structs & items & E1 & E2 & E3 & E4 & E5 & _ & _).
    apply default_hook_spec in E1. destruct E1 as (P & L & _). cbn [b2n] in L.
    assert (S : exists r, expand_structs (tp_structs t) = Some r) by eauto. apply expand_structs_spec in S. destruct S as [S1 S2].
    constructor; auto.
    + assert (I : Forall (fun f => exists i, expand_function d f = Some i) (tp_functions t)) by (apply all_defined; eauto).
      assert (X : Forall export_ok (tp_functions t)) by (apply (exports_defined _ []); eauto).
      rewrite Forall_forall in *. intros f If. apply (legal_function_iff d). auto.
    + intros i j f h Ef Eh Df Dh. rewrite Forall_forall in P.
      apply (proj1 (filter_once defaultb (tp_functions t)) ltac:(lia) i j f h Ef Eh); apply defaultb_spec; eauto; apply P; eapply nth_error_In; eauto.
  - intros [F D S1 S2].
    assert (P : Forall parses (tp_functions t)).
    { eapply Forall_impl; [|exact F]. intros f Lf. apply (legal_function_iff None) in Lf. now destruct Lf as [_ [X _]]. }
    assert (Hd : default_hook (tp_functions t) None = Some (option_map fn_name (find defaultb (tp_functions t)))).
    { apply default_hook_spec. split; [exact P|]. split; [|reflexivity]. cbn [b2n].
      assert (Q : (List.length (filter defaultb (tp_functions t)) <= 1)%nat); [|lia]. apply filter_once. intros i j f h Ef Eh Df Dh. rewrite Forall_forall in P.
      apply (D i j f h Ef Eh); apply defaultb_spec; auto; apply P; eapply nth_error_In; eauto. }
    unfold macro_expand, template_meta. rewrite Hd. cbn [obind].
    assert (Es : exists r, template_schema t = Some r).
    { unfold template_schema. destruct (find ms_storage (tp_structs t)) as [s|] eqn:Fs; [|eauto]. apply find_some in Fs. destruct Fs as [Is _].
      rewrite Forall_forall in S1. destruct (S1 s Is) as [_ A B C]. apply struct_vars_spec. auto. }
    destruct Es as [schema ->]. cbn [obind].
    destruct (proj2 (exports_defined (tp_functions t) [])) as [exports ->].
    { eapply Forall_impl; [|exact F]. intros f Lf. apply (legal_function_iff None) in Lf. tauto. }
    cbn [obind]. destruct (proj2 (expand_structs_spec (tp_structs t)) (conj S1 S2)) as [structs ->]. cbn [obind].
    destruct (proj2 (all_defined (expand_function (option_map fn_name (find defaultb (tp_functions t)))) (tp_functions t))) as [items ->].
    { eapply Forall_impl; [|exact F]. intros f Lf. apply (legal_function_iff (option_map fn_name (find defaultb (tp_functions t)))) in Lf. tauto. }
    cbn [obind]. eauto.
Qed.
(** What each function becomes. *)
Lemma items_become ord t g m : macro_expand ord t = Some (g, m) -> Forall2 (becomes t) (tp_functions t) (ge_items g).
Proof.
  intros E. destruct (macro_expand_inv ord t g m E) as (d & schema & exports & structs & items & E1 & E2 & E3 & E4 & E5 & -> & _). cbn [ge_items].
  apply default_hook_spec in E1. destruct E1 as (P & L & Ed). apply all_some_spec in E5.
  assert (Q : forall f i, expand_function d f = Some i -> becomes t f i).
  { intros f i Ei. destruct (expand_function_rules d f i Ei) as (l & Pf & R & C). destruct C as [(A & B & C)|[(A & B & C & D & ->)|(A & B & ->)]]; [|now constructor|now constructor].
    destruct (has_attr l KindFundable) eqn:Hf.
    2:{ subst i. constructor; [exact A|]. constructor. intros X. apply (has_annotated f l KindFundable Pf) in X; [congruence|discriminate]. }
    destruct C as (h & Eh & ->). constructor; [exact A|]. unfold fundable_hook in Eh. pose proof (find_kind l KindFundable) as Q.
    destruct (find_attr l KindFundable) as [x|]; [|discriminate]. destruct Q as [Kx Ix]. apply In_nth_error in Ix. destruct Ix as [j Ej].
    destruct (parsed_back f l j x Pf Ej) as (a & Ea & Pa). apply nth_error_In in Ea.
    pose proof (proj1 (kind_named a x KindFundable ltac:(discriminate) Pa) Kx) as Na.
    assert (Ka : kind_of_name (ra_name a) = KindFundable) by (rewrite <- (parse_kind a x Pa); exact Kx). unfold parse_attr in Pa. rewrite Ka in Pa.
    destruct x as [| |[s|]| |]; try discriminate Kx.
    - injection Eh as <-. destruct (ra_args a) as [| | |s'|] eqn:Ar; try discriminate Pa. injection Pa as ->. eapply NamedHook; eauto.
    - destruct (ra_args a) as [| | |s'|] eqn:Ar; try discriminate Pa. rewrite Forall_forall in P.
      destruct (find defaultb (tp_functions t)) as [h'|] eqn:Fd; cbn [option_map] in Ed; subst d; injection Eh as <-.
      + apply find_some in Fd. destruct Fd as [Ih Dh]. eapply DefaultHook; eauto. apply defaultb_spec; auto.
      + eapply ImplicitHook; eauto. intros h' Ih Dh. pose proof (find_none _ _ Fd h' Ih) as Z. apply (defaultb_spec h' (P h' Ih)) in Dh. congruence. }
  clear - E5 Q. induction E5; constructor; auto.
Qed.
Lemma fund_generated ord t g m : macro_expand ord t = Some (g, m) -> (ge_fund g = true <-> forall h, In h (tp_functions t) -> ~ default_for_funds h).
Proof.
  intros E. destruct (macro_expand_inv ord t g m E) as (d & schema & exports & structs & items & E1 & E2 & E3 & E4 & E5 & -> & _). cbn [ge_fund].
  apply default_hook_spec in E1. destruct E1 as (P & L & ->). rewrite Forall_forall in P. destruct (find defaultb (tp_functions t)) as [h|] eqn:Fd; cbn [option_map].
  - apply find_some in Fd. destruct Fd as [Ih Dh]. split; [discriminate|]. intros X. exfalso. apply (X h Ih). apply defaultb_spec; auto.
  - split; [|reflexivity]. intros _ h Ih Dh. pose proof (find_none _ _ Fd h Ih) as Z. apply (defaultb_spec h (P h Ih)) in Dh. congruence.
Qed.

(* ------------------------------------------------------------------------- *)
(** ** The description and the deploy message *)
Lemma typify_legal w : written_legal w -> typify w = prim_name (wt_type w).
Proof.
  intros L. destruct w as [ty p]. unfold written_legal in L. cbn [wt_type wt_prefix] in L. destruct p; [destruct (L eq_refl) as [->| ->]; reflexivity|]. destruct ty; reflexivity.
Qed.
Lemma struct_vars_inv s ms : struct_vars s = Some ms ->
  storage_vars (field_types s) = Some (map mv_var ms) /\
  Forall2 (fun v p => mv_name v = fst p /\ wt_type (mv_written v) = field_prim (sv_type (mv_var v)) /\ written_legal (mv_written v)) ms (ms_fields s).
Proof.
  unfold struct_vars. intros E. destruct (ensure (negb (ms_odd s))); [|discriminate]. cbn [obind] in E.
  destruct (all_some field_of (ms_fields s)) as [fs|] eqn:Ef; [|discriminate]. cbn [obind] in E.
  destruct (storage_vars (map snd fs)) as [vs|] eqn:Ev; [|discriminate]. cbn [obind] in E. injection E as <-.
  pose proof (storage_vars_at (map snd fs) 0 0 vs Ev) as [L At]. rewrite map_length in L. rewrite (fields_types s fs Ef) in *.
  rewrite !map_map. cbn [mv_var]. assert (Mv : map (fun x : bytes * written * field_type * svar => snd x) (combine fs vs) = vs).
  { clear - L. revert vs L. induction fs as [|f fs IH]; intros [|v vs] L; cbn in *; try discriminate; auto. f_equal. apply IH. congruence. }
  rewrite Mv. split; [exact Ev|].
  assert (Ty : Forall2 (fun f v => sv_type v = snd f) fs vs).
  { pose proof (fields_types s fs Ef) as Ft. assert (X : map snd fs = map sv_type vs).
    { rewrite Ft. apply nth_error_ext. intros i. rewrite nth_error_map. destruct (nth_error (field_types s) i) as [f|] eqn:Fi.
      - rewrite (At i f Fi). cbn. now destruct f.
      - assert (nth_error vs i = None) as -> by (apply nth_error_None; apply nth_error_None in Fi; rewrite <- Ft, map_length in Fi; lia). reflexivity. }
    clear - X. revert vs X. induction fs as [|f fs IH]; intros [|v vs] X; try discriminate X; constructor; cbn in X; injection X as X1 X2; auto. }
  apply all_some_spec in Ef. clear - Ef Ty. revert vs Ty. induction Ef as [|p [[n w] f] l fs Ep F IH]; intros vs Ty; inversion Ty; subst; cbn [combine map]; constructor; auto.
  cbn [fst snd mv_name mv_written mv_var] in *. destruct (field_of_type p n w f Ep) as (A & B & C & D). cbn [snd] in *. rewrite H1. auto.
Qed.
Definition var_read (v : svar) : craft_var := mkCraftVar (sv_byte_count v) (match sv_type v with FPrim _ => None | FArray _ n => Some n end).
Lemma small_u64 n : n <= 18446744073709551615 -> u64_of_json (num n) = Some n.
Proof.
  intros L. unfold u64_of_json, num. destruct (((0 <=? Z.of_N n) && (Z.of_N n <=? 18446744073709551615))%Z) eqn:E; [now rewrite N2Z.id|lia].
Qed.
Definition var_small (v : svar) : Prop :=
  sv_id v <= 18446744073709551615 /\ sv_offset v <= 18446744073709551615 /\ sv_byte_count v <= 20 /\ field_cells (sv_type v) <= 18446744073709551615.
Lemma emit_var_read v : var_small (mv_var v) -> craft_var_of (emit_var v) = Some (var_read (mv_var v)).
Proof.
  intros (A & B & C & D). destruct v as [n w [id off ty bc]]. cbn [mv_var sv_id sv_offset sv_byte_count sv_type] in *. unfold emit_var, var_read. cbn [mv_var sv_id sv_offset sv_byte_count sv_type mv_name mv_written].
  destruct ty as [ty|ty k]; cbn [field_cells] in D; unfold craft_var_of, must, may.
  - change (assoc (txt "id") _) with (Some (num id)). change (assoc (txt "name") _) with (Some (JStr n)). change (assoc (txt "type") _) with (Some (JStr (typify w))).
    change (assoc (txt "offset") _) with (Some (num off)). change (assoc (txt "byte_count") _) with (Some (num bc)). cbn [obind string_of_json].
    rewrite !small_u64 by lia. cbn [obind]. reflexivity.
  - change (assoc (txt "id") _) with (Some (num id)). change (assoc (txt "name") _) with (Some (JStr n)). change (assoc (txt "type") _) with (Some (JStr (bracketed (typify w)))).
    change (assoc (txt "offset") _) with (Some (num off)). change (assoc (txt "byte_count") _) with (Some (num bc)). change (assoc (txt "length") _) with (Some (num k)). cbn [obind string_of_json].
    rewrite !small_u64 by lia. cbn [obind]. reflexivity.
Qed.
Lemma prim_word t : exists x, type_word t x /\ prim_name t = txt x.
Proof. destruct t; eexists; (split; [constructor|reflexivity]). Qed.
Lemma str_written w : as_written w (written_str w).
Proof. destruct (prim_word (wt_type w)) as (x & W & E). exists x. split; [exact W|]. unfold written_str. now rewrite E. Qed.
Lemma emit_param_read p b : snd p = MBase b -> base_legal b -> exists j, emit_param p = Some j /\ craft_param_of j = Some tt /\ describes_param j p.
Proof.
  destruct p as [n t]. cbn [snd fst]. intros -> L. pose proof str_written as W. destruct b as [w|w k]; cbn [emit_param snd fst].
  - eexists. split; [reflexivity|]. split; [reflexivity|]. split; [reflexivity|]. split; [reflexivity|]. exists (written_str w). auto.
  - eexists. split; [reflexivity|]. split; [|split; [reflexivity|]; split; [reflexivity|]; exists (written_str w); split; [auto|reflexivity]]. cbn [base_legal] in L. change (2 ^ 32) with 4294967296 in L. unfold craft_param_of, must, may.
    change (assoc (txt "name") _) with (Some (JStr n)). change (assoc (txt "type") _) with (Some (JStr (bracketed (written_str w)))). change (assoc (txt "length") _) with (Some (num k)).
    cbn [obind string_of_json]. rewrite small_u64 by lia. reflexivity.
Qed.
Lemma emit_params_read ps : Forall (fun p => exists b, snd p = MBase b /\ base_legal b) ps ->
  exists js, all_some emit_param ps = Some js /\ (exists us, all_some craft_param_of js = Some us) /\ Forall2 describes_param js ps.
Proof.
  induction 1 as [|p ps (b & B & L) F (js & E1 & (us & E2) & E3)]; [exists []; cbn; split; [reflexivity|split; [eauto|constructor]]|].
  destruct (emit_param_read p b B L) as (j & J1 & J2 & J3). exists (j :: js). cbn [all_some]. rewrite J1, E1. cbn [obind]. split; [reflexivity|].
  rewrite J2, E2. cbn [obind]. split; [eauto|]. now constructor.
Qed.
Lemma emit_base_describes b : describes_base (emit_base b) b.
Proof. destruct b as [w|w n]; cbn [emit_base describes_base]; (split; [reflexivity|]); exists (written_str w); (split; [apply str_written|reflexivity]). Qed.
Lemma emit_output_describes o : describes_result (emit_output o) o.
Proof.
  destruct o as [[b|bs]|]; cbn [emit_output describes_result]; [apply emit_base_describes| |reflexivity].
  eexists. split; [reflexivity|]. induction bs as [|b bs IH]; cbn [map]; constructor; [apply emit_base_describes|exact IH].
Qed.
Lemma emit_export_read x : Forall (fun p => exists b, snd p = MBase b /\ base_legal b) (ex_params x) ->
  exists j, emit_export x = Some j /\ craft_api_of j = Some (mkCraftApi (ex_name x) (ex_ctor x)) /\
  at_key "name" j = Some (JStr (ex_name x)) /\ at_key "wasm_name" j = Some (JStr (ex_wasm_name x)) /\ at_key "is_ctor" j = Some (JBool (ex_ctor x)) /\
  at_key "is_fundable" j = Some (JBool (ex_fundable x)) /\ at_key "doc" j = Some (JStr (ex_doc x)) /\
  exists s ps r, at_key "signature" j = Some s /\ at_key "params" s = Some (JArr ps) /\ at_key "returns" s = Some r /\
    Forall2 describes_param ps (ex_params x) /\ describes_result r (ex_output x).
Proof.
  intros F. destruct (emit_params_read _ F) as (js & E1 & (us & E2) & E3). unfold emit_export, emit_signature. rewrite E1. cbn [obind]. eexists. split; [reflexivity|]. split.
  - unfold craft_api_of, must.
    change (assoc (txt "name") _) with (Some (JStr (ex_name x))). change (assoc (txt "wasm_name") _) with (Some (JStr (ex_wasm_name x))).
    change (assoc (txt "is_ctor") _) with (Some (JBool (ex_ctor x))). change (assoc (txt "is_fundable") _) with (Some (JBool (ex_fundable x))).
    change (assoc (txt "doc") _) with (Some (JStr (ex_doc x))). change (assoc (txt "signature") _) with (Some (JObj [(txt "params", JArr js); (txt "returns", emit_output (ex_output x))])).
    cbn [obind string_of_json bool_of_json]. unfold craft_sig_of, must.
    change (assoc (txt "params") _) with (Some (JArr js)). change (assoc (txt "returns") _) with (Some (emit_output (ex_output x))). cbn [obind list_of_json]. rewrite E2. reflexivity.
  - do 5 (split; [reflexivity|]). do 3 eexists. split; [reflexivity|]. split; [reflexivity|]. split; [reflexivity|]. split; [exact E3|]. apply emit_output_describes.
Qed.
Lemma storage_small fs vs : storage_vars fs = Some vs -> Forall var_small vs.
Proof.
  intros E. pose proof (proj1 (storage_iff fs) (ex_intro _ vs E)) as C. change (2 ^ 32) with 4294967296 in C. destruct (storage_vars_at fs 0 0 vs E) as [L At]. apply Forall_forall. intros v Iv.
  apply In_nth_error in Iv. destruct Iv as [i Ei]. assert (Li : (i < List.length fs)%nat) by (rewrite <- L; apply nth_error_Some; congruence).
  destruct (nth_error fs i) as [f|] eqn:Fi; [|apply nth_error_None in Fi; lia]. pose proof (At i f Fi) as Q. rewrite Ei in Q. injection Q as ->.
  assert (S1 : count_cells fs = count_cells (firstn i fs) + count_cells (skipn i fs)).
  { rewrite <- (firstn_skipn i fs) at 1. generalize (firstn i fs) (skipn i fs). intros a b. induction a as [|x a IH]; [reflexivity|]. cbn [app count_cells fold_right]. fold (count_cells (a ++ b)) (count_cells a). lia. }
  pose proof (bytes_bound (firstn i fs)) as B.
  assert (S2 : field_cells f <= count_cells (skipn i fs)).
  { assert (skipn i fs = f :: skipn (S i) fs) as ->.
    { clear - Fi. revert i Fi. induction fs as [|g fs IH]; intros [|i] Fi; try discriminate; cbn in *; [now injection Fi as ->|auto]. }
    cbn [count_cells fold_right]. lia. }
  unfold var_small, field_var. cbn [sv_id sv_offset sv_byte_count sv_type]. repeat split; try lia. destruct f as [ty|ty k]; destruct ty; cbn; lia.
Qed.
Lemma sizes_read fs vs : storage_vars fs = Some vs -> byte_sizes (mkCraft (map var_read vs) []) = cell_sizes fs.
Proof.
  intros E. destruct (storage_vars_at fs 0 0 vs E) as [L At]. unfold byte_sizes. cbn [cm_schema].
  assert (Ty : Forall2 (fun f v => sv_type v = f /\ sv_byte_count v = type_size (field_prim f)) fs vs).
  { assert (At' : exists p q : nat -> N, forall i f, nth_error fs i = Some f -> nth_error vs i = Some (field_var f (p i) (q i))) by
      (exists (fun i => 0 + count_cells (firstn i fs)), (fun i => 0 + count_bytes (firstn i fs)); exact At).
    destruct At' as (p & q & At'). clear - At' L. revert vs L p q At'. induction fs as [|f fs IH]; intros [|v vs] L p q At; try discriminate L; constructor.
    - specialize (At 0%nat f eq_refl). cbn in At. injection At as ->. destruct f; split; reflexivity.
    - apply (IH vs ltac:(cbn in L; congruence) (fun i => p (S i)) (fun i => q (S i))). intros i g Gi. exact (At (S i) g Gi). }
  clear - Ty. unfold cell_sizes. induction Ty as [|f v fs vs [A B] F IH]; [reflexivity|]. cbn [map flat_map]. rewrite IH. f_equal. unfold var_read. cbn [cv_byte_count cv_length]. rewrite A, B.
  assert (type_size (field_prim f) mod 4294967296 = type_size (field_prim f)) as -> by (apply N.mod_small; destruct (field_prim f); cbn; lia). destruct f; reflexivity.
Qed.
Lemma byte_sizes_schema s a b : byte_sizes (mkCraft s a) = byte_sizes (mkCraft s b).
Proof. reflexivity. Qed.
(** The description, read back. *)
Lemma meta_read m fs : storage_vars fs = Some (map mv_var (me_schema m)) ->
  Forall (fun x => Forall (fun p => exists b, snd p = MBase b /\ base_legal b) (ex_params x)) (me_exports m) ->
  exists j, meta_json m = Some j /\
    craft_meta_of j = Some (mkCraft (map var_read (map mv_var (me_schema m))) (map (fun x => mkCraftApi (ex_name x) (ex_ctor x)) (me_exports m))).
Proof.
  intros E F. pose proof (storage_small _ _ E) as S.
  assert (A : exists api, all_some emit_export (me_exports m) = Some api /\ all_some craft_api_of api = Some (map (fun x => mkCraftApi (ex_name x) (ex_ctor x)) (me_exports m))).
  { clear - F. induction F as [|x l Fx F (api & A & B)]; [exists []; split; reflexivity|]. destruct (emit_export_read x Fx) as (j & J1 & J2 & _). exists (j :: api). cbn [all_some map]. rewrite J1, A. cbn [obind]. split; [reflexivity|]. rewrite J2, B. reflexivity. }
  destruct A as (api & A & B). assert (V : all_some craft_var_of (map emit_var (me_schema m)) = Some (map var_read (map mv_var (me_schema m)))).
  { clear - S. induction (me_schema m) as [|v l IH]; [reflexivity|]. cbn [map all_some] in *. inversion S; subst. rewrite emit_var_read by assumption. cbn [obind]. rewrite IH by assumption. reflexivity. }
  unfold meta_json. rewrite A. cbn [obind]. eexists. split; [reflexivity|]. unfold craft_meta_of, must.
  change (assoc (txt "schema") _) with (Some (JArr (map emit_var (me_schema m)))). change (assoc (txt "api") _) with (Some (JArr api)). cbn [obind list_of_json]. rewrite V. cbn [obind]. rewrite B. reflexivity.
Qed.

Lemma storage_facts ord t g m : macro_expand ord t = Some (g, m) ->
  storage_vars (storage_types t) = Some (map mv_var (me_schema m)) /\
  Forall2 (fun v p => mv_name v = fst p /\ wt_type (mv_written v) = field_prim (sv_type (mv_var v)) /\ written_legal (mv_written v)) (me_schema m) (flat_map ms_fields (tp_structs t)) /\
  forall vs, In vs (ge_storage g) -> vs = me_schema m.
Proof.
  intros E. assert (Lg : legal_template t) by (apply (accepted ord); eauto). destruct Lg as [_ _ S1 S2].
  destruct (macro_expand_inv ord t g m E) as (d & schema & exports & structs & items & E1 & E2 & E3 & E4 & E5 & -> & ->). cbn [me_schema ge_storage].
  unfold storage_types, template_schema, expand_structs in *. destruct (tp_structs t) as [|s [|s' l]]; [| |cbn in S2; lia].
  - cbn in E2, E4. injection E2 as <-. injection E4 as <-. split; [reflexivity|]. split; [constructor|contradiction].
  - inversion S1 as [|? ? [A _ _ _] _]; subst. cbn [find] in E2. rewrite A in E2. destruct (struct_vars_inv s schema E2) as [V N]. cbn [flat_map]. rewrite !app_nil_r. split; [exact V|]. split; [exact N|].
    cbn [validate_structs] in E4. rewrite A in E4. cbn [obind all_some] in E4. unfold expand_struct in E4. rewrite A, E2 in E4. cbn [obind] in E4. injection E4 as <-. intros vs [<-|[]]. reflexivity.
Qed.
Lemma entry_export f : legal_function f -> entry f -> exists c k doc, export_schema f = Some (mkExport c k (fn_name f) (fn_name f) (fn_params f) (fn_output f) doc) /\
  export_of f = mkExport c k (fn_name f) (fn_name f) (fn_params f) (fn_output f) doc /\ (c = true <-> annotated "ctor" f) /\ (k = true <-> annotated "fundable" f) /\ documented f doc.
Proof.
  intros Lf Ef. apply (legal_function_iff None) in Lf. destruct Lf as [_ [[l El] S]]. pose proof (proj1 (func_attrs_parsed f l) El) as P.
  destruct (export_schema_spec f l El) as (doc & X & D); [now apply (is_entry_spec f l P)|now apply S|]. exists (has_attr l KindCtor), (has_attr l KindFundable), doc.
  split; [exact X|]. unfold export_of. rewrite X. split; [reflexivity|]. split; [now apply (has_annotated f l KindCtor P)|]. split; [now apply (has_annotated f l KindFundable P)|exact D].
Qed.
Section Ordered.
  Variable ord : list export -> list export.
  Hypothesis ord_perm : forall l, Permutation (ord l) l.
  Variable t : template.
  Hypothesis names : NoDup (map fn_name (tp_functions t)).
  Lemma exports_facts g m : macro_expand ord t = Some (g, m) -> Permutation (me_exports m) (map export_of (filter entryb (tp_functions t))).
  Proof.
    intros E. destruct (macro_expand_inv ord t g m E) as (d & schema & exports & structs & items & E1 & E2 & E3 & E4 & E5 & -> & ->). cbn [me_exports].
    rewrite (exports_value _ [] exports names E3). apply ord_perm.
  Qed.
  Lemma entry_in g m x : macro_expand ord t = Some (g, m) -> In x (me_exports m) -> exists f, In f (tp_functions t) /\ legal_function f /\ entry f /\ x = export_of f.
  Proof.
    intros E I. assert (Lg : legal_template t) by (apply (accepted ord); eauto). destruct Lg as [F _ _ _]. rewrite Forall_forall in F.
    apply (Permutation_in _ (exports_facts g m E)) in I. apply in_map_iff in I. destruct I as (f & <- & I). apply filter_In in I. destruct I as [I B]. pose proof (F f I) as Lf. exists f. split; [exact I|]. split; [exact Lf|]. split; [|reflexivity].
    apply entryb_spec; auto. apply (legal_function_iff None) in Lf. now destruct Lf as [_ [X _]].
  Qed.
  Lemma export_params g m : macro_expand ord t = Some (g, m) -> Forall (fun x => Forall (fun p => exists b, snd p = MBase b /\ base_legal b) (ex_params x)) (me_exports m).
  Proof.
    intros E. apply Forall_forall. intros x I. destruct (entry_in g m x E I) as (f & If & Lf & Ef & ->). destruct (entry_export f Lf Ef) as (c & k & d & _ & -> & _). cbn [ex_params].
    now destruct (lf_entry f Lf Ef) as (_ & P & _).
  Qed.
  Definition ctor_names (m : meta) : list bytes := map ex_name (filter ex_ctor (me_exports m)).
  Lemma ctor_names_in g m n : macro_expand ord t = Some (g, m) -> (In n (ctor_names m) <-> is_ctor_of t n).
  Proof.
    intros E. unfold ctor_names. split.
    - intros I. apply in_map_iff in I. destruct I as (x & <- & I). apply filter_In in I. destruct I as [I C]. destruct (entry_in g m x E I) as (f & If & Lf & Ef & ->).
      destruct (entry_export f Lf Ef) as (c & k & d & _ & X & Hc & _). rewrite X in *. cbn [ex_name ex_ctor] in *. exists f. repeat split; auto. now apply Hc.
    - intros (f & If & <- & A). assert (Lg : legal_template t) by (apply (accepted ord); eauto). destruct Lg as [F _ _ _]. rewrite Forall_forall in F. pose proof (F f If) as Lf.
      assert (Ef : entry f) by (left; exact A). destruct (entry_export f Lf Ef) as (c & k & d & _ & X & Hc & _). apply in_map_iff. exists (export_of f). rewrite X. split; [reflexivity|].
      apply filter_In. split; [|apply Hc; exact A]. rewrite <- X. apply (Permutation_in _ (Permutation_sym (exports_facts g m E))). apply in_map. apply filter_In. split; [exact If|].
      apply entryb_spec; auto. apply (legal_function_iff None) in Lf. now destruct Lf as [_ [Y _]].
  Qed.
  Lemma ctor_names_once g m : macro_expand ord t = Some (g, m) -> NoDup (ctor_names m).
  Proof.
    intros E. assert (Q : NoDup (map ex_name (me_exports m))).
    { apply (Permutation_NoDup (Permutation_map ex_name (Permutation_sym (exports_facts g m E)))). rewrite map_map.
      assert (X : map (fun f => ex_name (export_of f)) (filter entryb (tp_functions t)) = map fn_name (filter entryb (tp_functions t))).
      { apply map_ext_in. intros f I. assert (Ix : In (export_of f) (me_exports m)) by (apply (Permutation_in _ (Permutation_sym (exports_facts g m E))); now apply in_map).
        apply filter_In in I. destruct I as [I B]. assert (Lg : legal_template t) by (apply (accepted ord); eauto). destruct Lg as [F _ _ _]. rewrite Forall_forall in F. pose proof (F f I) as Lf.
        assert (Ef : entry f). { apply entryb_spec in B; auto. apply (legal_function_iff None) in Lf. now destruct Lf as [_ [Y _]]. }
        destruct (entry_export f Lf Ef) as (c & k & d & _ & Y & _). now rewrite Y. }
      rewrite X. clear - names. induction (tp_functions t) as [|f l IH]; cbn [filter map] in *; [constructor|]. inversion names; subst. destruct (entryb f); [|auto]. cbn [map]. constructor; auto.
      intros I. apply in_map_iff in I. destruct I as (g & Eg & I). apply filter_In in I. destruct I as [I _]. apply H1. rewrite <- Eg. now apply in_map. }
    unfold ctor_names. clear - Q. induction (me_exports m) as [|x l IH]; cbn [filter map] in *; [constructor|]. inversion Q; subst. destruct (ex_ctor x); [|auto]. cbn [map]. constructor; auto.
    intros I. apply in_map_iff in I. destruct I as (y & Ey & I). apply filter_In in I. destruct I as [I _]. apply H1. rewrite <- Ey. now apply in_map.
  Qed.
  Lemma ctors_exported g m n : macro_expand ord t = Some (g, m) -> is_ctor_of t n -> In n (wasm_exports g).
  Proof.
    intros E (f & If & <- & A). pose proof (items_become ord t g m E) as B. apply In_nth_error in If. destruct If as [i Ei]. pose proof (Forall2_at _ _ _ B i) as Q. rewrite Ei in Q.
    destruct (nth_error (ge_items g) i) as [x|] eqn:Ex; [|contradiction]. assert (exists h, x = IEntry (fn_name f) h) as [h ->].
    { destruct Q as [h _ _|N|N]; [eauto| |]; exfalso; apply N; now left. }
    unfold wasm_exports. right. right. apply in_or_app. left. apply in_flat_map. exists (IEntry (fn_name f) h). split; [eapply nth_error_In; exact Ex|now left].
  Qed.
  (** What is encoded. *)
  Lemma craft_eq compile g m : macro_expand ord t = Some (g, m) ->
    craft ord compile t =
    (let? l := from_byte_sizes 0 (cell_sizes (storage_types t)) in
     enc_sections [SCode (mkCode 0 (compile g) 1 Fixed); SCtors (ctor_names m); SData [l]]).
  Proof.
    intros E. unfold craft. rewrite E. cbn [obind]. destruct (storage_facts ord t g m E) as (V & _ & _). destruct (meta_read m (storage_types t) V (export_params g m E)) as (j & J1 & J2).
    rewrite J1. cbn [obind]. unfold craft_deploy. rewrite J2. cbn [obind]. unfold data_section, ctors_section. cbn [cm_api].
    rewrite (byte_sizes_schema _ _ []), (sizes_read _ _ V). destruct (from_byte_sizes 0 (cell_sizes (storage_types t))) as [l|]; [|reflexivity]. cbn [obind].
    assert (map ca_name (filter ca_ctor (map (fun x => mkCraftApi (ex_name x) (ex_ctor x)) (me_exports m))) = ctor_names m) as ->.
    { unfold ctor_names. clear. induction (me_exports m) as [|x l IH]; cbn [map filter ca_ctor]; [reflexivity|]. destruct (ex_ctor x); cbn [map ca_name]; now rewrite IH. }
    reflexivity.
  Qed.
End Ordered.
Lemma enc_sections_wf l b : NoDup (map section_kind_of l) -> Forall section_wf0 l -> enc_sections l = Some b -> sections_wf l.
Proof.
  intros Hn HF He. split; auto. unfold enc_sections in He. destruct (enc_buffers l []) as [bufs|] eqn:E; try discriminate. cbn [obind] in He.
  destruct (enc_buffers_inv l [] bufs HF Hn E) as (more & -> & F2). cbn [app] in *.
  unfold finish in He. destruct (nlen more <? u16_max); try discriminate. destruct (enc_seq enc_buf more) as [body|] eqn:Eb; try discriminate. clear He E Hn.
  revert body Eb. induction F2 as [|s [k c] l more [Hk Hs] F2 IH]; intros body Eb; [constructor|]. inversion HF; subst. apply enc_seq_cons_inv in Eb as (p & q & E1 & E2 & _).
  apply enc_buf_inv in E1 as [Hlen _]. cbn [snd] in *. destruct (enc_section_limits s c) as [Hw Hz]; auto. constructor; [|eauto]. split; auto. lia.
Qed.
Lemma cell_small fs : Forall (uint_wf 16) (cell_sizes fs).
Proof.
  unfold cell_sizes. apply Forall_forall. intros x I. apply in_flat_map in I. destruct I as (f & _ & I). apply repeat_spec in I. subst x. destruct (field_prim f); vm_compute; reflexivity.
Qed.
Lemma layout_small fs l : from_byte_sizes 0 (cell_sizes fs) = Some l -> layout_wf0 l /\ nlen (fl_vars l) = count_cells fs.
Proof.
  intros E. pose proof (proj1 (from_byte_sizes_defined _ _) (ex_intro _ l E)) as D. destruct (from_byte_sizes_inv _ _ _ E) as (F & L & V). split.
  - exists 0, (cell_sizes fs). split; [exact F|]. split; [apply cell_small|]. split; [reflexivity|]. split; [|split; [exact L|exact V]]. intros N. destruct D as [D|[D _]]; [contradiction|]. unfold u32_max in D. lia.
  - unfold nlen. rewrite L. apply cell_sizes_length.
Qed.
Lemma enc_strings_short l b : enc_seq enc_string l = Some b -> Forall (fun s => nlen s <= 255) l.
Proof.
  revert b. induction l as [|s l IH]; intros b E; [constructor|]. apply enc_seq_cons_inv in E as (c & d & E1 & E2 & _). unfold enc_string in E1. destruct (N.ltb_spec (nlen s) 256); [|discriminate]. constructor; eauto. lia.
Qed.
Lemma enc_code_short code x : enc_code (mkCode 0 code 1 Fixed) = Some x -> nlen code < 4294967296.
Proof.
  unfold enc_code. cbn [cs_flags cs_gas_mode cs_svm_version cs_code]. destruct enc_code_kind as [a0|]; [|discriminate]. cbn [obind]. destruct (enc_u64 1) as [a1|]; [|discriminate]. cbn [obind].
  destruct (enc_gas_mode Fixed) as [a2|]; [|discriminate]. cbn [obind]. destruct (enc_u32 0) as [a3|]; [|discriminate]. cbn [obind].
  unfold enc_data. destruct (N.ltb_spec (nlen code) (256 ^ N.of_nat 4)) as [H|H]; [|discriminate]. intros _. exact H.
Qed.
(** Three sections encode exactly within the limits. *)
Lemma three_iff code ctors fs : bytes_ok code -> Forall (fun n => bytes_ok n /\ utf8_valid n = true) ctors ->
  ((exists l b, from_byte_sizes 0 (cell_sizes fs) = Some l /\ enc_sections [SCode (mkCode 0 code 1 Fixed); SCtors ctors; SData [l]] = Some b) <->
   (nlen ctors <= 254 /\ Forall (fun n => nlen n <= 255) ctors /\ count_cells fs < 65535 /\ nlen code < 2 ^ 32 - 27)).
Proof.
  intros Bc Bn. change (2 ^ 32 - 27) with 4294967269.
  assert (Nd : forall l, NoDup (map section_kind_of [SCode (mkCode 0 code 1 Fixed); SCtors ctors; SData [l]])).
  { intros l. cbn. constructor; [intros [X|[X|[]]]; discriminate X|]. constructor; [intros [X|[]]; discriminate X|]. constructor; [intros []|constructor]. }
  split.
  - intros (l & b & El & E). destruct (layout_small fs l El) as [Lw Ll].
    assert (P : (exists x, enc_code (mkCode 0 code 1 Fixed) = Some x) /\ (exists y, enc_ctors ctors = Some y)).
    { unfold enc_sections in E. cbn [enc_buffers enc_section] in E. destruct (enc_code (mkCode 0 code 1 Fixed)) as [x|]; [|discriminate]. cbn [obind] in E. destruct (enc_ctors ctors) as [y|]; [|discriminate]. eauto. }
    destruct P as [[x Ex] [y Ey]].
    pose proof (enc_code_short _ _ Ex) as Hc.
    unfold enc_ctors in Ey. destruct (N.ltb_spec (nlen ctors) 255) as [Hk|]; [|discriminate]. destruct (enc_seq enc_string ctors) as [z|] eqn:Ez; [|discriminate]. apply enc_strings_short in Ez.
    assert (W : sections_wf [SCode (mkCode 0 code 1 Fixed); SCtors ctors; SData [l]]).
    { apply (enc_sections_wf _ b (Nd l)); [|exact E]. repeat apply Forall_cons; try apply Forall_nil; cbn [section_wf0 cs_svm_version cs_code cs_flags cs_gas_mode].
      - repeat split; auto; red; cbn; lia.
      - split; [lia|]. rewrite Forall_forall in *. intros n In_. destruct (Bn n In_). specialize (Ez n In_). repeat split; auto.
      - split; [vm_compute; discriminate|]. auto. }
    destruct W as [_ W]. inversion W as [|? ? [_ W1] W']; subst. inversion W' as [|? ? _ W'']; subst. inversion W'' as [|? ? [W3 _] _]; subst. cbn [section_size cs_code] in W1. cbn [section_wf] in W3. destruct W3 as [_ W3].
    inversion W3 as [|? ? (first & sizes & _ & Q & _ & _ & _ & Q2 & _) _]; subst. repeat split; try lia; auto. unfold nlen in *. lia.
  - intros (A & B & C & D).
    assert (exists l, from_byte_sizes 0 (cell_sizes fs) = Some l) as [l El].
    { apply from_byte_sizes_defined. right. rewrite cell_sizes_length, cell_sizes_total. pose proof (bytes_bound fs). unfold u32_max. lia. }
    exists l. destruct (layout_small fs l El) as [(first & sizes & L1 & L2 & L3 & L4 & L5 & L6) Ll].
    assert (W : sections_wf [SCode (mkCode 0 code 1 Fixed); SCtors ctors; SData [l]]).
    { split; [apply Nd|]. repeat apply Forall_cons; try apply Forall_nil; cbn [section_wf section_size cs_svm_version cs_code cs_flags cs_gas_mode].
      - split; [repeat split; auto; red; cbn; lia|]. lia.
      - split; [split; [lia|]; rewrite Forall_forall in *; intros n In_; destruct (Bn n In_); specialize (B n In_); repeat split; auto|].
        assert (T : total (map (fun c => 1 + nlen c) ctors) <= 256 * nlen ctors).
        { clear - B. induction B as [|n l Hn F IH]; [cbn; lia|]. cbn [map]. rewrite total_cons, nlen_cons. lia. }
        lia.
      - split; [split; [vm_compute; discriminate|]; constructor; [|constructor]|].
        + exists first, sizes. repeat split; auto; try (eapply L6; eauto). unfold nlen in *. lia.
        + cbn [map]. rewrite total_cons. change (total []) with 0. unfold layout_size. rewrite Ll. destruct (fl_vars l); lia. }
    destruct (sections_rt _ W) as (b & Eb & _). eauto.
Qed.

Section Crafted.
  Variable ord : list export -> list export.
  Hypothesis ord_perm : forall l, Permutation (ord l) l.
  Variable compile : generated -> bytes.
  Hypothesis compile_ok : forall g, bytes_ok (compile g).
  Variable t : template.
  Hypothesis names : NoDup (map fn_name (tp_functions t)).
  Hypothesis names_ok : forall f, In f (tp_functions t) -> bytes_ok (fn_name f) /\ utf8_valid (fn_name f) = true.
  Lemma ctor_names_ok g m : macro_expand ord t = Some (g, m) -> Forall (fun n => bytes_ok n /\ utf8_valid n = true) (ctor_names m).
  Proof.
    intros E. apply Forall_forall. intros n I. apply (ctor_names_in ord ord_perm t names g m n E) in I. destruct I as (f & If & <- & _). auto.
  Qed.
  Lemma deployable_iff g m : macro_expand ord t = Some (g, m) ->
    (deployable t (compile g) <-> (nlen (ctor_names m) <= 254 /\ Forall (fun n => nlen n <= 255) (ctor_names m) /\ count_cells (storage_types t) < 65535 /\ nlen (compile g) < 2 ^ 32 - 27)).
  Proof.
    intros E. pose proof (fun n => ctor_names_in ord ord_perm t names g m n E) as I. pose proof (ctor_names_once ord ord_perm t names g m E) as D. split.
    - intros [A B C F]. split; [apply A; [exact D|]; intros n; apply I|]. split; [|auto]. apply Forall_forall. intros n In_. apply B, I, In_.
    - intros (A & B & C & F). constructor; auto.
      + intros l Dl Il. assert ((List.length l <= List.length (ctor_names m))%nat); [|unfold nlen in *; lia]. apply NoDup_incl_length; [exact Dl|]. intros n In_. apply I, Il, In_.
      + rewrite Forall_forall in B. intros n Cn. apply B, I, Cn.
  Qed.
  Lemma craft_iff : (exists msg, craft ord compile t = Some msg) <-> (exists g m, macro_expand ord t = Some (g, m) /\ deployable t (compile g)).
  Proof.
    split.
    - intros [msg E]. destruct (macro_expand ord t) as [[g m]|] eqn:Em; [|unfold craft in E; rewrite Em in E; discriminate]. exists g, m. split; [reflexivity|].
      apply (deployable_iff g m Em). apply (three_iff (compile g) (ctor_names m) (storage_types t) (compile_ok g) (ctor_names_ok g m Em)).
      rewrite (craft_eq ord ord_perm t names compile g m Em) in E. destruct (from_byte_sizes 0 (cell_sizes (storage_types t))) as [l|]; [|discriminate]. cbn [obind] in E. eauto.
    - intros (g & m & Em & Dp). apply (deployable_iff g m Em) in Dp. apply (three_iff (compile g) (ctor_names m) (storage_types t) (compile_ok g) (ctor_names_ok g m Em)) in Dp.
      destruct Dp as (l & b & El & Eb). exists b. rewrite (craft_eq ord ord_perm t names compile g m Em), El. exact Eb.
  Qed.
  Lemma craft_sections msg : craft ord compile t = Some msg -> exists g m layout, macro_expand ord t = Some (g, m) /\
    from_byte_sizes 0 (cell_sizes (storage_types t)) = Some layout /\
    sections_wf [SCode (mkCode 0 (compile g) 1 Fixed); SCtors (ctor_names m); SData [layout]] /\
    enc_sections [SCode (mkCode 0 (compile g) 1 Fixed); SCtors (ctor_names m); SData [layout]] = Some msg.
  Proof.
    intros E. destruct (macro_expand ord t) as [[g m]|] eqn:Em; [|unfold craft in E; rewrite Em in E; discriminate].
    pose proof (craft_eq ord ord_perm t names compile g m Em) as Q. rewrite E in Q. destruct (from_byte_sizes 0 (cell_sizes (storage_types t))) as [l|] eqn:El; [|discriminate]. cbn [obind] in Q. symmetry in Q.
    exists g, m, l. split; [reflexivity|]. split; [reflexivity|].
    assert (Dp : nlen (ctor_names m) <= 254 /\ Forall (fun n => nlen n <= 255) (ctor_names m) /\ count_cells (storage_types t) < 65535 /\ nlen (compile g) < 2 ^ 32 - 27).
    { apply (three_iff (compile g) (ctor_names m) (storage_types t) (compile_ok g) (ctor_names_ok g m Em)). eauto. }
    assert (W : sections_wf [SCode (mkCode 0 (compile g) 1 Fixed); SCtors (ctor_names m); SData [l]]).
    { destruct Dp as (A & B & C & D). change (2 ^ 32 - 27) with 4294967269 in D. apply (enc_sections_wf _ msg); [|  |exact Q].
      - cbn. constructor; [intros [X|[X|[]]]; discriminate X|]. constructor; [intros [X|[]]; discriminate X|]. constructor; [intros []|constructor].
      - pose proof (ctor_names_ok g m Em) as On. repeat apply Forall_cons; try apply Forall_nil; cbn [section_wf0 cs_svm_version cs_code cs_flags cs_gas_mode].
        + repeat split; auto; try (red; cbn; lia). lia.
        + split; [lia|]. rewrite Forall_forall in *. intros n In_. destruct (On n In_). specialize (B n In_). repeat split; auto.
        + split; [vm_compute; discriminate|]. constructor; [|constructor]. now destruct (layout_small _ l El). }
    auto.
  Qed.
  Lemma craft_decodes msg : craft ord compile t = Some msg -> exists g m layout, macro_expand ord t = Some (g, m) /\
    from_byte_sizes 0 (cell_sizes (storage_types t)) = Some layout /\
    forall rest, dec_template None (msg ++ rest) = Ok ([SCode (mkCode 0 (compile g) 1 Fixed); SCtors (ctor_names m); SData [layout]], rest).
  Proof.
    intros E. destruct (craft_sections msg E) as (g & m & l & Em & El & W & Q). exists g, m, l. split; [exact Em|]. split; [exact El|].
    destruct (template_rt _ W) as (b & Eb & Db); [cbn; tauto|cbn; tauto|cbn; tauto|]. rewrite Q in Eb. injection Eb as <-. exact Db.
  Qed.
  Lemma description g m : macro_expand ord t = Some (g, m) ->
    exists j api schema es, meta_json m = Some j /\ at_key "api" j = Some (JArr api) /\ at_key "schema" j = Some (JArr schema) /\
    Forall2 describes_entry api es /\ NoDup (map fn_name es) /\ (forall f, In f es <-> In f (tp_functions t) /\ entry f) /\
    List.length schema = List.length (storage_types t) /\
    forall i p f, nth_error (flat_map ms_fields (tp_structs t)) i = Some p -> nth_error (storage_types t) i = Some f ->
      exists o, nth_error schema i = Some o /\ describes_field o (fst p) f (count_cells (firstn i (storage_types t))) (count_bytes (firstn i (storage_types t))).
  Proof.
    intros E. assert (Lg : legal_template t) by (apply (accepted ord); eauto). pose proof (lt_functions t Lg) as Fl. rewrite Forall_forall in Fl.
    assert (Pa : forall f, In f (tp_functions t) -> parses f).
    { intros f If. pose proof (Fl f If) as Lf. apply (legal_function_iff None) in Lf. now destruct Lf as [_ [Y _]]. }
    pose proof (exports_facts ord ord_perm t names g m E) as Pe.
    destruct (Permutation_map_inv _ _ Pe) as (es & Ees & Pes).
    assert (Ies : forall f, In f es <-> In f (tp_functions t) /\ entry f).
    { intros f. split.
      - intros I. apply (Permutation_in _ (Permutation_sym Pes)) in I. apply filter_In in I. destruct I as [I B]. split; [exact I|]. apply entryb_spec; auto.
      - intros [I B]. apply (Permutation_in _ Pes). apply filter_In. split; [exact I|]. apply entryb_spec; auto. }
    assert (Nes : NoDup (map fn_name es)).
    { apply (Permutation_NoDup (Permutation_map fn_name Pes)). clear - names. induction (tp_functions t) as [|f l IH]; cbn [filter map] in *; [constructor|]. inversion names; subst.
      destruct (entryb f); [|auto]. cbn [map]. constructor; auto. intros I. apply in_map_iff in I. destruct I as (h & Eh & I). apply filter_In in I. destruct I as [I _]. apply H1. rewrite <- Eh. now apply in_map. }
    assert (A : exists api, all_some emit_export (me_exports m) = Some api /\ Forall2 describes_entry api es).
    { rewrite Ees. assert (Fe : Forall (fun f => legal_function f /\ entry f) es) by (apply Forall_forall; intros f I; apply Ies in I; destruct I as [I Ef]; split; [exact (Fl f I)|exact Ef]).
      clear - Fe. induction Fe as [|f es [Lf Ef] F (api & A & B)]; [exists []; split; [reflexivity|constructor]|]. destruct (entry_export f Lf Ef) as (c & k & d & _ & X & Hc & Hk & Hd).
      destruct (emit_export_read (export_of f)) as (j & J1 & _ & J3 & J4 & J5 & J6 & J7 & J8); [rewrite X; cbn [ex_params]; now destruct (lf_entry f Lf Ef) as (_ & P & _)|].
      exists (j :: api). cbn [map all_some]. rewrite J1, A. split; [reflexivity|]. constructor; [|exact B]. rewrite X in *. cbn [ex_name ex_wasm_name ex_ctor ex_fundable ex_doc ex_params ex_output] in *.
      split; [exact J3|]. split; [exact J4|]. split; [exists c; auto|]. split; [exists k; auto|]. split; [exists d; auto|]. destruct J8 as (s & ps & r & S1 & S2 & S3 & S4 & S5). exists s, ps, r. auto. }
    destruct A as (api & A1 & A2). destruct (storage_facts ord t g m E) as (V & Nm & _).
    unfold meta_json. rewrite A1. cbn [obind]. do 4 eexists. split; [reflexivity|]. split; [reflexivity|]. split; [reflexivity|]. split; [exact A2|]. split; [exact Nes|]. split; [exact Ies|].
    destruct (storage_vars_at _ 0 0 _ V) as [L At]. rewrite map_length in L. split; [now rewrite map_length|].
    intros i p f Ei Fi. specialize (At i f Fi). rewrite nth_error_map in At. destruct (nth_error (me_schema m) i) as [v|] eqn:Ev; [|discriminate]. cbn [option_map] in At. injection At as At.
    pose proof (Forall2_at _ _ _ Nm i) as Q. rewrite Ev, Ei in Q. destruct Q as (Q1 & Q2 & Q3). rewrite nth_error_map, Ev. eexists. split; [reflexivity|].
    unfold emit_var. cbv zeta. rewrite At in Q2. rewrite At, (typify_legal _ Q3), Q1, Q2.
    destruct f as [ty|ty k]; cbn [sv_type field_prim field_var sv_id sv_offset sv_byte_count]; rewrite ?N.add_0_l; unfold describes_field; cbn [field_prim]; do 4 (split; [reflexivity|]);
      destruct (prim_word ty) as (x & W & Ex); exists x; (split; [exact W|]); rewrite Ex; split; reflexivity.
  Qed.
End Crafted.
