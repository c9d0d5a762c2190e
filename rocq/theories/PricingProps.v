(** Properties C35 (prices bound executions), C36 (which programs can be priced), C38
    (gas estimates), C74 (prices are attained) and C111 (the price list). *)
From Coq Require Import String List NArith Arith Bool Lia ZifyBool ZifyNat ZifyN.
From Verif Require Import Base Text ReceiptModel ReceiptProofs GraphModel GraphSpec GraphProofs ProgramModel ProgramSpec ProgramProofs ProgramProps
  PricingModel PricingSpec CfgProofs PricingProofs PricingTotal PricingExact.
Import ListNotations.
Open Scope list_scope.
Open Scope N_scope.

(* ------------------------------------------------------------------------- *)
(** * C35 *)

(** When a program that passed validation is priced, every execution of a function, from
    its start up to any point, whatever the data, costs at most the price of the function:
    its ordinary instructions and blocks, those of the functions it calls, and the
    imported functions.  Missing for the full property: the control instructions ([if],
    [else], [end], branches, [return], [unreachable]) are taken as free. *)
Theorem C35_executions_bounded_partial : forall p c r pr f st is st',
  validate_wasm p c = Ok tt -> price_program p r = Some pr -> enters p f st -> run p st is st' ->
  exists v, assoc f pr = Some v /\ total_charge (charge p r) is <= v.
Proof.
  intros p c r pr f st is st' V Pr En R. apply validate_ok_any in V.
  destruct (validate_spec p) as [[_ A]|(e & V' & _)]; [|congruence].
  destruct A as (A1 & A2 & _ & _). eapply execution_bounded; eauto. split; auto.
Qed.
Print Assumptions C35_executions_bounded_partial.

(** The chain: an execution of [ex_program] and its price. *)
Example C35_satisfiable : exists pr is st', validate_wasm ex_program false = Ok tt /\
  price_program ex_program v0_resolver = Some pr /\ assoc 1 pr = Some 3003 /\
  run ex_program [mkFrame 1 [] [Op GetLocal; Block; Op GetLocal; If; Call 0; Br 1; Else; Call 2; Op Drop; End; End; End]] is st' /\
  total_charge (charge ex_program v0_resolver) is = 3003.
Proof.
  destruct (price_program ex_program v0_resolver) as [pr|] eqn:Pr; [|vm_compute in Pr; discriminate].
  exists pr. do 2 eexists. split; [vm_compute; reflexivity|]. split; [auto|].
  split; [vm_compute in Pr; injection Pr as <-; vm_compute; reflexivity|]. split.
  - eapply run_cons; [apply step_op|]. eapply run_cons; [apply step_block; reflexivity|].
    eapply run_cons; [apply step_op|]. eapply run_cons; [apply step_if_true; reflexivity|].
    eapply run_cons; [apply step_host; vm_compute; reflexivity|]. apply run_nil.
  - vm_compute. reflexivity.
Qed.

(** With control instructions counted at the price the list gives them, it is false: a
    function that only returns early costs more than its price. *)
Definition early_return : program := mkProgram [] [] [(0, [Return; End])].
Theorem C35_executions_bounded_refuted : ~ (forall p c r pr f st is st',
  validate_wasm p c = Ok tt -> price_program p r = Some pr -> enters p f st -> run p st is st' ->
  exists v, assoc f pr = Some v /\ total_charge (full_charge p r) is <= v).
Proof.
  intros H. destruct (price_program early_return v0_resolver) as [pr|] eqn:Pr; [|vm_compute in Pr; discriminate].
  destruct (H early_return false v0_resolver pr 0 [mkFrame 0 [] [Return; End]] [Return] []) as (v & A & L).
  - reflexivity.
  - exact Pr.
  - exists [Return; End]. split; reflexivity.
  - eapply run_cons; [apply step_return|apply run_nil].
  - vm_compute in Pr. injection Pr as <-. vm_compute in A. injection A as <-. vm_compute in L. now apply L.
Qed.
Print Assumptions C35_executions_bounded_refuted.

(** With the price list of version 0, where every instruction costs one, the price also
    bounds how many instructions other than control and calls are executed. *)
Definition counted (i : instr) : bool := match i with Call _ => false | _ => negb (is_control i) end.
Theorem C35_instruction_count : forall p c pr f st is st',
  validate_wasm p c = Ok tt -> price_program p v0_resolver = Some pr -> enters p f st -> run p st is st' ->
  exists v, assoc f pr = Some v /\ nlen (filter counted is) <= v.
Proof.
  intros p c pr f st is st' V Pr En R.
  destruct (C35_executions_bounded_partial p c v0_resolver pr f st is st' V Pr En R) as (v & A & L).
  exists v. split; [auto|]. etransitivity; [|exact L]. clear.
  induction is as [|i is IH]; [cbn; lia|]. cbn [filter total_charge fold_right].
  fold (total_charge (charge p v0_resolver) is). destruct (counted i) eqn:C; [|lia].
  assert (1 <= charge p v0_resolver i) by (destruct i; try discriminate C; cbn; lia).
  rewrite nlen_cons. lia.
Qed.
Print Assumptions C35_instruction_count.

(* ------------------------------------------------------------------------- *)
(** * C36 *)

(** A validated program whose called functions exist, whose bodies are well nested, has no
    [if] or jump in dead code and no [if]-[else] with both parts leaving, and whose bodies
    cost less than 2^64 when every instruction is counted, is priced; every function of
    the program has a price, and no price exceeds the sum of its instructions.  Missing
    for the full property: the programs that do not meet these conditions, which
    validation lets through. *)
Theorem C36_priced_partial : forall m v p c r B, program_new m v = Ok p -> validate_wasm p c = Ok tt ->
  (forall f t, calls p f t -> defined p t) ->
  (forall f body, get_func p f = Some body -> well_nested [InBlock] body /\ tidy (live p f body) [InBlock] body) ->
  affordable p r B ->
  exists pr, price_program p r = Some pr /\
    (forall f, defined p f -> exists x, assoc f pr = Some x) /\ (forall f x, assoc f pr = Some x -> x <= B f).
Proof.
  intros m v p c r B New V Def Wn Aff. apply validate_ok_any in V.
  destruct (validate_spec p) as [[_ A]|(e & V' & _)]; [|congruence].
  destruct (program_priced p r B A (program_new_nodup m v p New) Def Wn Aff) as (pr & Pr & Le).
  exists pr. split; [auto|]. split; [|auto]. intros f D.
  destruct (price_program_spec p r pr Pr) as (_ & _ & P). destruct (P f (or_introl D)) as (fp & x & _ & _ & X). eauto.
Qed.
Print Assumptions C36_priced_partial.

Definition priced_without_tidiness : Prop := forall p c r B, validate_wasm p c = Ok tt -> NoDup (map fst (p_functions p)) ->
  (forall f t, calls p f t -> defined p t) ->
  (forall f body, get_func p f = Some body -> well_nested [InBlock] body) -> affordable p r B ->
  exists pr, price_program p r = Some pr.

(** It is false without the condition on dead code: both parts of an [if] return. *)
Definition both_return : program :=
  mkProgram [] [] [(0, [Op GetLocal; If; Return; Else; Return; End; Op GetLocal; End])].
Lemma single_function p f body : p_functions p = [(f, body)] -> forall g b, get_func p g = Some b -> g = f /\ b = body.
Proof.
  intros Q g b G. unfold get_func in G. rewrite Q in G. cbn [assoc] in G.
  destruct (N.eqb_spec f g) as [->|]; [|discriminate]. injection G as <-. auto.
Qed.
Lemma no_calls p f body : p_functions p = [(f, body)] -> (forall t, ~ In (Call t) body) -> forall g t, ~ calls p g t.
Proof.
  intros Q N g t ((b & I & C) & _). rewrite Q in I. destruct I as [I|[]]. injection I as <- <-. exact (N t C).
Qed.
Ltac one_body := intros ? ? G; eapply single_function in G; [|reflexivity]; destruct G as [-> ->].
Theorem C36_both_arms_return_refuted : ~ priced_without_tidiness.
Proof.
  intros H. destruct (H both_return false v0_resolver (fun _ => 100)) as (pr & Pr).
  - reflexivity.
  - repeat constructor; intros [].
  - intros f t C. destruct (no_calls both_return 0 _ eq_refl) with (g := f) (t := t); auto.
    intros x X. cbn in X. repeat destruct X as [X|X]; discriminate || auto.
  - one_body. repeat split; try discriminate. eexists. reflexivity.
  - one_body. vm_compute. split; discriminate.
  - vm_compute in Pr. discriminate Pr.
Qed.
Print Assumptions C36_both_arms_return_refuted.

(** Nor with dead code after a jump. *)
Definition dead_if : program := mkProgram [] [] [(0, [Return; Op GetLocal; If; End; End])].
Theorem C36_dead_code_refuted : ~ priced_without_tidiness.
Proof.
  intros H. destruct (H dead_if false v0_resolver (fun _ => 100)) as (pr & Pr).
  - reflexivity.
  - repeat constructor; intros [].
  - intros f t C. destruct (no_calls dead_if 0 _ eq_refl) with (g := f) (t := t); auto.
    intros x X. cbn in X. repeat destruct X as [X|X]; discriminate || auto.
  - one_body. repeat split; discriminate.
  - one_body. vm_compute. split; discriminate.
  - vm_compute in Pr. discriminate Pr.
Qed.
Print Assumptions C36_dead_code_refuted.

(** Nor when a called function does not exist. *)
Definition missing_callee : program := mkProgram [] [] [(0, [Call 7; End])].
Theorem C36_missing_function_refuted : ~ (forall p c r B, validate_wasm p c = Ok tt -> NoDup (map fst (p_functions p)) ->
  (forall f body, get_func p f = Some body -> well_nested [InBlock] body /\ tidy (live p f body) [InBlock] body) ->
  affordable p r B -> exists pr, price_program p r = Some pr).
Proof.
  intros H. destruct (H missing_callee false v0_resolver (fun f => if f =? 0 then 200 else 100)) as (pr & Pr).
  - reflexivity.
  - repeat constructor; intros [].
  - one_body. repeat split; discriminate.
  - one_body. vm_compute. split; discriminate.
  - vm_compute in Pr. discriminate Pr.
Qed.
Print Assumptions C36_missing_function_refuted.

(** Nor for small programs with large prices: 65 functions, each calling the previous one
    twice, cost more than 2^64. *)
Fixpoint doubling (n : nat) : list (N * list instr) :=
  match n with
  | O => [(0, [Op GetLocal; End])]
  | S n => (N.of_nat (S n), [Call (N.of_nat n); Call (N.of_nat n); End]) :: doubling n
  end.
Definition doubling_program : program := mkProgram [] [] (doubling 64).
Theorem C36_overflow_refuted : ~ (forall p c, validate_wasm p c = Ok tt -> NoDup (map fst (p_functions p)) ->
  (forall f t, calls p f t -> defined p t) ->
  (forall f body, get_func p f = Some body -> well_nested [InBlock] body /\ tidy (live p f body) [InBlock] body) ->
  exists pr, price_program p v0_resolver = Some pr).
Proof.
  assert (Fs : forall n f body, In (f, body) (doubling n) ->
     (f = 0 /\ body = [Op GetLocal; End]) \/
     (exists m, f = N.of_nat (S m) /\ body = [Call (N.of_nat m); Call (N.of_nat m); End] /\ (S m <= n)%nat)).
  { induction n as [|n IH]; intros f body I; cbn [doubling] in I.
    - destruct I as [I|[]]. injection I as <- <-. auto.
    - destruct I as [I|I].
      + right. exists n. split; [congruence|]. split; [congruence|lia].
      + destruct (IH f body I) as [X|(m & A & B & C)]; auto. right. exists m. split; [auto|]. split; [auto|lia]. }
  assert (Df : forall n m, (m <= n)%nat -> In (N.of_nat m) (map fst (doubling n))).
  { induction n as [|n IH]; intros m L.
    - assert (m = 0)%nat by lia. subst. now left.
    - destruct (Nat.eq_dec m (S n)) as [->|]; [now left|]. right. apply IH. lia. }
  intros H. destruct (H doubling_program false) as (pr & Pr).
  - vm_compute. reflexivity.
  - assert (Lt : forall n x, In x (map fst (doubling n)) -> x <= N.of_nat n).
    { intros n x I. apply in_map_iff in I. destruct I as ([f b] & <- & I). apply Fs in I. cbn [fst].
      destruct I as [[-> _]|(m & -> & _ & L)]; lia. }
    change (NoDup (map fst (doubling 64))). generalize 64%nat as n.
    induction n as [|n IH]; [repeat constructor; intros []|]. cbn [doubling map fst]. constructor; auto.
    intros I. apply Lt in I. lia.
  - intros f t ((b & I & C) & _). apply Fs in I. destruct I as [[_ ->]|(m & _ & -> & L)].
    + destruct C as [C|[C|[]]]; discriminate.
    + assert (t = N.of_nat m) by (destruct C as [C|[C|[C|[]]]]; congruence). subst t. apply Df. lia.
  - intros f body G. apply assoc_in, Fs in G. destruct G as [[_ ->]|(m & _ & -> & _)]; repeat split; discriminate.
  - vm_compute in Pr. discriminate Pr.
Qed.
Print Assumptions C36_overflow_refuted.

(** All this holds of [ex_program]. *)
Example C36_satisfiable :
  program_new (Some ex_module) true = Ok ex_program /\ validate_wasm ex_program false = Ok tt /\
  calls ex_program 1 2 /\ (forall f t, calls ex_program f t -> defined ex_program t) /\
  (forall f body, get_func ex_program f = Some body ->
     well_nested [InBlock] body /\ tidy (live ex_program f body) [InBlock] body) /\
  affordable ex_program v0_resolver (fun f => if f =? 1 then 10000 else 10).
Proof.
  split; [vm_compute; reflexivity|]. split; [vm_compute; reflexivity|].
  assert (Fs : forall f body, get_func ex_program f = Some body -> (f = 1 /\
     body = [Op GetLocal; Block; Op GetLocal; If; Call 0; Br 1; Else; Call 2; Op Drop; End; End; End]) \/
     (f = 2 /\ body = [Op I32Const; End])).
  { intros f body G. unfold get_func, ex_program in G. cbn [p_functions assoc] in G.
    destruct (N.eqb_spec 1 f) as [<-|]; [injection G as <-; auto|].
    destruct (N.eqb_spec 2 f) as [<-|]; [injection G as <-; auto|discriminate]. }
  split; [split; [eexists; split; [left; reflexivity|cbn; tauto]|vm_compute; discriminate]|].
  split; [|split].
  - intros f t ((b & I & C) & N).
    destruct I as [I|[I|[]]]; injection I as <- <-; cbn [In] in C;
      repeat destruct C as [C|C]; try discriminate; try contradiction; injection C as <-.
    + exfalso. apply N. vm_compute. reflexivity.
    + vm_compute. auto.
  - intros f body G. destruct (Fs f body G) as [[-> ->]|[-> ->]].
    + split; [cbn; repeat split; try discriminate; try lia; eexists; reflexivity|].
      assert (S1 : forall k ls, flows ex_program (mkFrame 1 []
         [Op GetLocal; Block; Op GetLocal; If; Call 0; Br 1; Else; Call 2; Op Drop; End; End; End]) (mkFrame 1 ls k) ->
         live ex_program 1 [Op GetLocal; Block; Op GetLocal; If; Call 0; Br 1; Else; Call 2; Op Drop; End; End; End] k).
      { intros k ls F. exists ls. exact F. }
      assert (L1 : flows ex_program (mkFrame 1 []
         [Op GetLocal; Block; Op GetLocal; If; Call 0; Br 1; Else; Call 2; Op Drop; End; End; End])
         (mkFrame 1 [[End]] [If; Call 0; Br 1; Else; Call 2; Op Drop; End; End; End])).
      { eapply flows_on; [eapply flows_on; [eapply flows_on; [apply flows_here|]|]|].
        - eapply flow_step. apply step_op.
        - eapply flow_step. apply step_block. reflexivity.
        - eapply flow_step. apply step_op. }
      cbn [tidy next_scope tl]. repeat split.
      * eapply S1, L1.
      * eapply S1. eapply flows_on; [eapply flows_on; [exact L1|]|].
        -- eapply flow_step. apply step_if_true. reflexivity.
        -- apply flow_call.
      * eapply S1. eapply flows_on; [eapply flows_on; [eapply flows_on; [eapply flows_on; [exact L1|]|]|]|].
        -- eapply flow_step. eapply step_if_else; reflexivity.
        -- apply flow_call.
        -- eapply flow_step. apply step_op.
        -- eapply flow_step. apply step_end.
    + split; [cbn; repeat split; discriminate|cbn; tauto].
  - intros f body G. destruct (Fs f body G) as [[-> ->]|[-> ->]]; vm_compute; split; discriminate.
Qed.

(* ------------------------------------------------------------------------- *)
(** * C38 *)

(** Choice: the estimate allows what each side allows, and it is the smallest interval
    that does. *)
Theorem C38_choice : forall a b, proper a -> proper b ->
  (forall n, within n a \/ within n b -> within n (gas_or a b)) /\
  (forall lo hi, (forall n, within n a \/ within n b -> lo <= n /\ n <= hi) ->
     forall n, within n (gas_or a b) -> lo <= n /\ n <= hi) /\
  proper (gas_or a b).
Proof.
  intros a b Pa Pb.
  assert (Ends : forall g, proper g -> within (least g) g /\ within (most g) g).
  { intros [x|x y] P; unfold proper in P; cbn in *; lia. }
  assert (L : least (gas_or a b) = N.min (least a) (least b) /\ most (gas_or a b) = N.max (most a) (most b)).
  { destruct a as [x|x y], b as [z|z t]; cbn in *; try lia. destruct (N.eqb_spec x z); cbn; lia. }
  assert (W : forall g n, within n g <-> least g <= n /\ n <= most g).
  { intros [x|x y] n; cbn; lia. }
  split; [|split].
  - intros n. rewrite !W. lia.
  - intros lo hi H n. rewrite W. destruct (Ends a Pa), (Ends b Pb).
    pose proof (H (least a)). pose proof (H (least b)). pose proof (H (most a)). pose proof (H (most b)). intuition lia.
  - unfold proper. pose proof Pa as Pa'. pose proof Pb as Pb'. unfold proper in Pa', Pb'. lia.
Qed.
Print Assumptions C38_choice.

(** Sequence: the estimate allows exactly the sums of what both sides allow, and the
    computation fails exactly when a sum the estimate has to represent exceeds 64 bits. *)
Theorem C38_sequence : forall a b, proper a -> proper b ->
  (forall g, gas_then a b = Some g ->
     proper g /\ forall n, within n g <-> exists x y, within x a /\ within y b /\ n = x + y) /\
  (gas_then a b = None <-> exists x y, within x a /\ within y b /\ u64_max < x + y).
Proof.
  intros a b Pa Pb.
  assert (W : forall g n, within n g <-> least g <= n /\ n <= most g) by (intros [x|x y] n; cbn; lia).
  assert (G : gas_then a b = None /\ u64_max < most a + most b \/
    exists g, gas_then a b = Some g /\ least g = least a + least b /\ most g = most a + most b /\ most a + most b <= u64_max).
  { unfold proper in *. destruct a as [x|x y], b as [z|z t]; unfold gas_then, add_usize; cbn [least most] in *.
    - destruct (N.leb_spec (x + z) u64_max); cbn [obind]; [right; eexists; (split; [reflexivity|]); cbn; lia|left; auto].
    - destruct (N.leb_spec (z + x) u64_max); cbn [obind]; [|left; split; [auto|lia]].
      destruct (N.leb_spec (t + x) u64_max); cbn [obind]; [right; eexists; (split; [reflexivity|]); cbn; lia|left; split; [auto|lia]].
    - destruct (N.leb_spec (x + z) u64_max); cbn [obind]; [|left; split; [auto|lia]].
      destruct (N.leb_spec (y + z) u64_max); cbn [obind]; [right; eexists; (split; [reflexivity|]); cbn; lia|left; split; [auto|lia]].
    - destruct (N.leb_spec (x + z) u64_max); cbn [obind]; [|left; split; [auto|lia]].
      destruct (N.leb_spec (y + t) u64_max); cbn [obind]; [right; eexists; (split; [reflexivity|]); cbn; lia|left; split; [auto|lia]]. }
  unfold proper in *. split.
  - intros g H. destruct G as [[G _]|(g' & G & L1 & L2 & _)]; [congruence|]. rewrite G in H. apply Some_inj in H. subst g'.
    split; [lia|]. intros n. rewrite W. split.
    + intros L. assert (D : n - least b <= most a \/ most a < n - least b) by lia. destruct D as [D|D].
      * destruct (N.le_gt_cases (least a + least b) n); [|lia].
        exists (n - least b), (least b). rewrite !W. lia.
      * exists (most a), (n - most a). rewrite !W. lia.
    + intros (x & y & X & Y & ->). rewrite W in X, Y. lia.
  - destruct G as [[G L]|(g & G & _ & _ & L)]; rewrite G; split; intros H; auto; try discriminate.
    + exists (most a), (most b). rewrite !W. lia.
    + destruct H as (x & y & X & Y & Z). rewrite W in X, Y. lia.
Qed.
Print Assumptions C38_sequence.

(** Neither operation depends on the order of its arguments or on the grouping; choosing
    between equal estimates changes nothing. *)
Theorem C38_laws : forall a b c,
  gas_or a b = gas_or b a /\ gas_then a b = gas_then b a /\ gas_or a a = a /\
  (forall n, within n (gas_or (gas_or a b) c) <-> within n (gas_or a (gas_or b c))) /\
  (forall n ab bc x y, gas_then a b = Some ab -> gas_then b c = Some bc ->
     gas_then ab c = Some x -> gas_then a bc = Some y -> (within n x <-> within n y)).
Proof.
  intros a b c. split; [|split; [|split; [|split]]].
  - destruct a as [x|x y], b as [z|z t]; cbn; auto; try (f_equal; lia).
    rewrite (N.eqb_sym z x). destruct (N.eqb_spec x z); [subst; auto|]. f_equal; lia.
  - assert (A : forall x y, add_usize x y = add_usize y x) by (intros; unfold add_usize; now rewrite N.add_comm).
    destruct a as [x|x y], b as [z|z t]; cbn; auto; rewrite (A z x), ?(A t y); reflexivity.
  - destruct a as [x|x y]; cbn; [now rewrite N.eqb_refl|f_equal; lia].
  - intros n.
    assert (W : forall g n, within n g <-> least g <= n /\ n <= most g) by (intros [x|x y] n0; cbn; lia).
    assert (L : forall a b, least (gas_or a b) = N.min (least a) (least b) /\ most (gas_or a b) = N.max (most a) (most b)).
    { clear. intros a b. destruct a as [x|x y], b as [z|z t]; cbn in *; try lia. destruct (N.eqb_spec x z); cbn; lia. }
    rewrite !W. destruct (L (gas_or a b) c) as [-> ->]. destruct (L a (gas_or b c)) as [-> ->].
    destruct (L a b) as [-> ->]. destruct (L b c) as [-> ->]. lia.
  - intros n ab bc x y H1 H2 H3 H4.
    assert (W : forall g n, within n g <-> least g <= n /\ n <= most g) by (intros [u|u v] n0; cbn; lia).
    assert (L : forall a b g, gas_then a b = Some g -> least g = least a + least b /\ most g = most a + most b).
    { clear. intros a b g. destruct a as [x|x y], b as [z|z t]; unfold gas_then, add_usize;
        repeat match goal with |- context [?u <=? ?v] => destruct (u <=? v); cbn [obind] end; intros H; try discriminate;
        injection H as <-; cbn; lia. }
    apply L in H1, H2, H3, H4. rewrite !W. lia.
Qed.
Print Assumptions C38_laws.

Example C38_satisfiable : proper (GFixed 5) /\ proper (GRange 3 10) /\
  gas_or (GFixed 5) (GFixed 7) = GRange 5 7 /\ gas_then (GFixed 5) (GRange 3 10) = Some (GRange 8 15) /\
  gas_then (GFixed u64_max) (GRange 0 1) = None.
Proof. unfold proper. cbn. repeat split; lia || reflexivity. Qed.

(* ------------------------------------------------------------------------- *)
(** * C74 *)

Lemma validated_loop_free p c : validate_wasm p c = Ok tt -> loop_free p.
Proof.
  intros V. apply validate_ok_any in V. destruct (validate_spec p) as [[_ A]|(e & V' & _)]; [|congruence].
  destruct A as (A1 & A2 & _ & _). split; auto.
Qed.

(** The price of a function of a validated program is the greatest cost of a path through
    its control flow and that of the functions it calls: some complete path costs exactly
    this, none costs more.  A path is an execution, whatever the data, except that it goes
    on in the caller after an [unreachable]. *)
Theorem C74_dearest_path : forall p c r pr f body, validate_wasm p c = Ok tt -> price_program p r = Some pr ->
  (forall g b, get_func p g = Some b -> well_nested [InBlock] b) -> get_func p f = Some body ->
  exists v, assoc f pr = Some v /\
    (exists is, path p [mkFrame f [] body] is [] /\ total_charge (charge p r) is = v) /\
    (forall is st', path p [mkFrame f [] body] is st' -> total_charge (charge p r) is <= v).
Proof.
  intros p c r pr f body V Pr Wn G. pose proof (validated_loop_free p c V) as LF.
  destruct (price_program_spec p r pr Pr) as (Ac & _ & _).
  destruct (price_attained p r pr true LF Pr Wn (or_introl eq_refl) _ f body [] (fun b l W => walk_short p f b l Ac W) G (or_introl eq_refl))
    as (v & is & A & R & T).
  exists v. split; [auto|]. split; [exists is; split; [now apply prun_path|auto]|].
  intros is' st' R'. destruct (covered_enter p r pr Pr f body G) as (v' & A' & C). rewrite A in A'. apply Some_inj in A'. subst v'.
  eapply (path_budget p r pr Pr LF); [exact R'|eapply enters_ok; exists body; split; [exact G|reflexivity]|].
  exists [v]. split; [repeat constructor; auto|cbn; lia].
Qed.
Print Assumptions C74_dearest_path.

(** When no called function contains an [unreachable], the path is an execution.  Missing
    for the full property: programs where one does. *)
Theorem C74_dearest_execution_partial : forall p c r pr f body, validate_wasm p c = Ok tt -> price_program p r = Some pr ->
  (forall g b, get_func p g = Some b -> well_nested [InBlock] b) ->
  (forall g h, calls p g h -> ~ occurs p h Unreachable) -> get_func p f = Some body ->
  exists v is, assoc f pr = Some v /\ run p [mkFrame f [] body] is [] /\ total_charge (charge p r) is = v.
Proof.
  intros p c r pr f body V Pr Wn Nu G. pose proof (validated_loop_free p c V) as LF.
  destruct (price_program_spec p r pr Pr) as (Ac & _ & _).
  destruct (price_attained p r pr false LF Pr Wn (or_intror Nu) _ f body [] (fun b l W => walk_short p f b l Ac W) G (or_intror (or_introl eq_refl)))
    as (v & is & A & R & T).
  exists v, is. split; [auto|]. split; [now apply prun_run|auto].
Qed.
Print Assumptions C74_dearest_execution_partial.

(** Otherwise the price can exceed the cost of every execution: the callee always traps, and
    what follows the call is counted. *)
Definition trapping_callee : program := mkProgram [] [] [(0, [Call 1; Op Nop; End]); (1, [Unreachable; End])].
Theorem C74_dearest_execution_refuted : ~ (forall p c r pr f body, validate_wasm p c = Ok tt -> price_program p r = Some pr ->
  (forall g b, get_func p g = Some b -> well_nested [InBlock] b) -> get_func p f = Some body ->
  exists v is st', assoc f pr = Some v /\ run p [mkFrame f [] body] is st' /\ total_charge (charge p r) is = v).
Proof.
  intros H. destruct (price_program trapping_callee v0_resolver) as [pr|] eqn:Pr; [|vm_compute in Pr; discriminate].
  destruct (H trapping_callee false v0_resolver pr 0 [Call 1; Op Nop; End]) as (v & is & st' & A & R & T).
  - reflexivity.
  - exact Pr.
  - intros g b G. unfold get_func, trapping_callee in G. cbn [p_functions assoc] in G.
    destruct (0 =? g); [apply Some_inj in G; subst b; cbn; repeat split; discriminate|].
    destruct (1 =? g); [apply Some_inj in G; subst b; cbn; repeat split; discriminate|discriminate G].
  - reflexivity.
  - vm_compute in Pr. apply Some_inj in Pr. subst pr. vm_compute in A. apply Some_inj in A. subst v.
    inversion R as [|? ? ? ? ? S1 R1]; subst; [discriminate T|].
    inversion S1; subst; try match goal with H : _ < nlen _ |- _ => now vm_compute in H end.
    match goal with H : get_func _ 1 = Some _ |- _ => vm_compute in H; apply Some_inj in H; subst end.
    inversion R1 as [|? ? ? ? ? S2 R2]; subst; [discriminate T|].
    inversion S2; subst. inversion R2 as [|? ? ? ? ? S3 R3]; subst; [discriminate T|]. inversion S3.
Qed.
Print Assumptions C74_dearest_execution_refuted.

(** The hypotheses hold of [ex_program], and the dearest execution is the one of the first
    branch. *)
Example C74_satisfiable : exists pr, validate_wasm ex_program false = Ok tt /\
  price_program ex_program v0_resolver = Some pr /\ assoc 1 pr = Some 3003 /\
  (forall g b, get_func ex_program g = Some b -> well_nested [InBlock] b) /\
  (forall g h, calls ex_program g h -> ~ occurs ex_program h Unreachable).
Proof.
  destruct (price_program ex_program v0_resolver) as [pr|] eqn:Pr; [|vm_compute in Pr; discriminate].
  exists pr. split; [vm_compute; reflexivity|]. split; [auto|].
  split; [vm_compute in Pr; injection Pr as <-; vm_compute; reflexivity|].
  destruct C36_satisfiable as (_ & _ & _ & _ & W & _). split; [intros g b G; exact (proj1 (W g b G))|].
  intros g h _ (b & I & C). clear W Pr.
  assert (forallb (fun x => negb (existsb (fun i => match i with Unreachable => true | _ => false end) (snd x)))
    (p_functions ex_program) = true) as F by (vm_compute; reflexivity).
  rewrite forallb_forall in F. specialize (F _ I). cbn [snd] in F. apply negb_true_iff in F.
  assert (existsb (fun i => match i with Unreachable => true | _ => false end) b = true); [|congruence].
  apply existsb_exists. exists Unreachable. auto.
Qed.

(* ------------------------------------------------------------------------- *)
(** * C111 *)

(** What an execution costs with the price list of version 0: one for every instruction other
    than control and calls, the tariff for every call of a host function in it, and 1000 for
    every other call of an imported function. *)
Lemma charge_v0 p i : charge p v0_resolver i =
  (if plain_instruction i then 1 else 0)
  + fold_right (fun t s => (if calls_host p (fst t) i then snd t else 0) + s) 0 tariff
  + (if calls_unlisted p i then 1000 else 0).
Proof.
  destruct i as [o| | | | | | | | | | |t|]; try reflexivity.
  unfold charge, is_control, full_charge, plain_instruction, calls_unlisted. unfold calls_host.
  destruct (nth_error (p_imports p) (N.to_nat t)) as [[m n]|]; [|reflexivity]. cbn [fst snd].
  cbn [v0_resolver import_price fst snd]. destruct (bytes_eqb m (txt "svm")); [|reflexivity].
  cbn [andb]. unfold v0_imports, tariff. cbn [v0_import existsb fold_right fst snd].
  repeat match goal with |- context [bytes_eqb n ?x] => let H := fresh in destruct (bytes_eqb n x) eqn:H; [apply bytes_eqb_spec in H; subst n; vm_compute; reflexivity|] end.
  repeat match goal with |- context [bytes_eqb ?x n] => destruct (bytes_eqb x n) eqn:?;
    [match goal with H : bytes_eqb x n = true |- _ => apply bytes_eqb_spec in H; subst n; vm_compute in *; discriminate end|] end. reflexivity.
Qed.
Theorem C111_executions_cost : forall p is,
  total_charge (charge p v0_resolver) is =
  count plain_instruction is + fold_right (fun t s => snd t * count (calls_host p (fst t)) is + s) 0 tariff
  + 1000 * count (calls_unlisted p) is.
Proof.
  intros p is. induction is as [|i is IH]; [reflexivity|]. cbn [total_charge fold_right]. fold (total_charge (charge p v0_resolver) is).
  rewrite IH, charge_v0. unfold count. cbn [filter].
  assert (F : forall (T : list (bytes * N)),
    fold_right (fun t s => (if calls_host p (fst t) i then snd t else 0) + s) 0 T
    + fold_right (fun t s => snd t * nlen (filter (calls_host p (fst t)) is) + s) 0 T
    = fold_right (fun t s => snd t * nlen (if calls_host p (fst t) i then i :: filter (calls_host p (fst t)) is else filter (calls_host p (fst t)) is) + s) 0 T).
  { induction T as [|t T IHT]; [reflexivity|]. cbn [fold_right]. rewrite <- IHT. destruct (calls_host p (fst t) i); rewrite ?nlen_cons; lia. }
  rewrite <- F. clear F. destruct (plain_instruction i), (calls_unlisted p i); rewrite ?nlen_cons; lia.
Qed.
Print Assumptions C111_executions_cost.
(** So the price of a function pays for everything any execution of it does. *)
Theorem C111_price_pays : forall p c pr f st is st',
  validate_wasm p c = Ok tt -> price_program p v0_resolver = Some pr -> enters p f st -> run p st is st' ->
  exists v, assoc f pr = Some v /\
    count plain_instruction is + fold_right (fun t s => snd t * count (calls_host p (fst t)) is + s) 0 tariff
    + 1000 * count (calls_unlisted p) is <= v.
Proof.
  intros p c pr f st is st' V Pr En R. destruct (C35_executions_bounded_partial p c v0_resolver pr f st is st' V Pr En R) as (v & A & L).
  exists v. split; [exact A|]. now rewrite <- C111_executions_cost.
Qed.
Print Assumptions C111_price_pays.
(** Transfers are not in the tariff: moving coins between two accounts costs a thousandth of
    setting a variable of 4 bytes. *)
Theorem C111_transfer_unlisted : forall p g, nth_error (p_imports p) (N.to_nat g) = Some (txt "svm", txt "svm_transfer") ->
  charge p v0_resolver (Call g) = 1000.
Proof. intros p g E. unfold charge, is_control, full_charge. rewrite E. vm_compute. reflexivity. Qed.
Print Assumptions C111_transfer_unlisted.
Definition tariff_program : program := mkProgram [(txt "svm", txt "svm_set64"); (txt "svm", txt "svm_transfer")] [] [(2, [Call 0; Call 1; Op Nop; End])].
Example C111_satisfiable :
  exists pr, validate_wasm tariff_program false = Ok tt /\ price_program tariff_program v0_resolver = Some pr /\ assoc 2 pr = Some 2001001
  /\ count (calls_host tariff_program (txt "svm_set64")) [Call 0; Call 1; Op Nop; End] = 1
  /\ count (calls_unlisted tariff_program) [Call 0; Call 1; Op Nop; End] = 1.
Proof. destruct (price_program tariff_program v0_resolver) as [pr|] eqn:Pr; [|vm_compute in Pr; discriminate]. exists pr. vm_compute in Pr. injection Pr as <-. repeat split; vm_compute; reflexivity. Qed.
