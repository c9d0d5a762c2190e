(** Lemmas for C123. *)
From Coq Require Import List NArith Bool Lia.
From Coq Require Import ZifyBool ZifyNat ZifyN.
From Verif Require Import Base CodecModel SectionModel LayoutModel ReceiptModel StorageModel GlobalModel RuntimeModel CheckedModel CheckedSpec.
Import ListNotations.
Open Scope list_scope.
Open Scope N_scope.

(** [x] is [y], or a panic if [strict] is false. *)
Definition near {E A} (strict : bool) (x y : outcome E A * gstate) : Prop := x = y \/ (strict = false /\ fst x = Panic).
Lemma near_refl {E A} s (x : outcome E A * gstate) : near s x x.
Proof. left. reflexivity. Qed.
Lemma near_bind {E A B} s (m m' : sm E A) (k k' : A -> sm E B) g :
  near s (m g) (m' g) -> (forall a g', m' g = (Ok a, g') -> near s (k a g') (k' a g')) -> near s (sbind m k g) (sbind m' k' g).
Proof.
  intros [H|[Hs H]] K; unfold sbind.
  - rewrite H. destruct (m' g) as [[a|er|] g'] eqn:Em; try apply near_refl. now apply K.
  - destruct (m g) as [[a|er|] g']; cbn in H; try discriminate H. right. now split.
Qed.
Lemma near_same_bind {E A B} s (m : sm E A) (k k' : A -> sm E B) g :
  (forall a g', m g = (Ok a, g') -> near s (k a g') (k' a g')) -> near s (sbind m k g) (sbind m k' g).
Proof. intros K. apply near_bind; [apply near_refl|exact K]. Qed.
Lemma sdebug_true {E A} checks b (k : unit -> sm E A) g : b = true -> sbind (sdebug checks b) k g = k tt g.
Proof. intros ->. destruct checks; reflexivity. Qed.

(** When is the host certain to agree: nothing is left to be answered, or one answer and none given. *)
Definition room (n : nat) (f : func_env) : Prop := n = O \/ (n = 1%nat /\ fe_returndata f = None).

Lemma host_call_unchecked e f mem c g : host_call_in false e f mem c g = host_call e f mem c g.
Proof. destruct c; try reflexivity. Qed.
Lemma host_call_checked e f mem c g :
  (forall o l, c <> HSetReturndata o l) -> host_call_in true e f mem c g = host_call e f mem c g.
Proof.
  intros N0. destruct c; try reflexivity; try (unfold host_call_in, host_call, sdebug, ssome; destruct (fe_calldata f); reflexivity).
  exfalso. eapply N0. reflexivity.
Qed.
Lemma host_call_near e f mem c g checks : near false (host_call_in checks e f mem c g) (host_call e f mem c g).
Proof.
  destruct checks; [|rewrite host_call_unchecked; apply near_refl].
  destruct c; try (rewrite host_call_checked; [apply near_refl|intros; discriminate]).
  unfold host_call_in, host_call, sdebug. apply near_same_bind. intros a g' E0. unfold none.
  destruct (fe_returndata f); [right; split; reflexivity|left; reflexivity].
Qed.
(** Only setting the answer changes the answer. *)
Lemma host_call_keeps e f mem c g v mem' f' g' :
  (forall o l, c <> HSetReturndata o l) -> host_call e f mem c g = (Ok (v, mem', f'), g') -> fe_returndata f' = fe_returndata f.
Proof.
  intros N0 E0. destruct c; cbn [host_call] in E0; try (exfalso; eapply N0; reflexivity);
    unfold sbind, ssome, sassert, sret, spanic in E0;
    repeat match type of E0 with
    | context [match ?x with _ => _ end] => destruct x
    end; try discriminate E0; injection E0 as <- <- <- <-; reflexivity.
Qed.

Lemma run_near {R} checks e (t : wasm R) : forall f g, near false (run_wasm_in checks e t f g) (run_wasm e t f g).
Proof.
  induction t as [mem r|msg|mem c k IH]; intros f g; cbn [run_wasm_in run_wasm]; try apply near_refl.
  destruct (host_call_near e f mem c g checks) as [H|[_ H]].
  - rewrite H. destruct (host_call e f mem c g) as [[[[v m'] f']|er|] g']; try apply near_refl. apply IH.
  - destruct (host_call_in checks e f mem c g) as [[p|er|] g']; try discriminate H. right. split; reflexivity.
Qed.
Lemma run_once {R} checks e (t : wasm R) : forall n f g, answers n t -> room n f -> run_wasm_in checks e t f g = run_wasm e t f g.
Proof.
  induction t as [mem r|msg|mem c k IH]; intros n f g A Rm; cbn [run_wasm_in run_wasm]; try reflexivity.
  inversion A as [| |n' mem' o l k' A'|n' mem' c' k' Nc A']; subst.
  - destruct Rm as [Rm|[Rm Rn]]; [discriminate Rm|]. injection Rm as ->.
    replace (host_call_in checks e f mem (HSetReturndata o l) g) with (host_call e f mem (HSetReturndata o l) g).
    2:{ unfold host_call_in, host_call, sdebug, none. rewrite Rn. destruct checks; reflexivity. }
    destruct (host_call e f mem _ g) as [[[[v m'] f']|er|] g']; try reflexivity. apply IH with O; [apply A'|left; reflexivity].
  - replace (host_call_in checks e f mem c g) with (host_call e f mem c g).
    2:{ destruct checks; [now rewrite host_call_checked|now rewrite host_call_unchecked]. }
    destruct (host_call e f mem c g) as [[[[v m'] f']|er|] g'] eqn:Eh; try reflexivity. apply IH with n; [apply A'|].
    destruct Rm as [->|[-> Rn]]; [left; reflexivity|right; split; [reflexivity|]]. rewrite (host_call_keeps _ _ _ _ _ _ _ _ _ Nc Eh). exact Rn.
Qed.
Lemma run_quiet {R} e (t : wasm R) : forall f g mem r f' g', answers 0 t -> run_wasm e t f g = (Ok (mem, r, f'), g') -> fe_returndata f' = fe_returndata f.
Proof.
  induction t as [mem0 r0|msg|mem0 c k IH]; intros f g mem r f' g' A E0; cbn [run_wasm] in E0; try discriminate E0.
  - injection E0 as <- <- <- <-. reflexivity.
  - inversion A as [| | |n' mem' c' k' Nc A']; subst. destruct (host_call e f mem0 c g) as [[[[v m'] f1]|er|] g1] eqn:Eh; try discriminate E0.
    rewrite (IH _ _ _ _ _ _ _ _ (A' _ _) E0). exact (host_call_keeps _ _ _ _ _ _ _ _ _ Nc Eh).
Qed.

(** Without checks: the model of RuntimeModel.v. *)
Lemma run_unchecked {R} e (t : wasm R) : forall f g, run_wasm_in false e t f g = run_wasm e t f g.
Proof.
  induction t as [mem r|msg|mem c k IH]; intros f g; cbn [run_wasm_in run_wasm]; try reflexivity. rewrite host_call_unchecked.
  destruct (host_call e f mem c g) as [[[[v m'] f']|er|] g']; try reflexivity. apply IH.
Qed.

(** The strict cases are the one of [answers_once] and the one without checks. *)
Definition fine (strict checks : bool) (en : engine) : Prop := strict = true -> checks = true -> answers_once en.
Lemma wasmer_call_near s checks e en i f name params mem g : fine s checks en -> (s = true -> checks = true -> fe_returndata f = None) ->
  near s (wasmer_call_in checks e en i f name params mem g) (wasmer_call e en i f name params mem g).
Proof.
  intros F Fn. unfold wasmer_call_in, wasmer_call. destruct checks; [destruct s|rewrite run_unchecked; apply near_refl].
  - left. destruct (F eq_refl eq_refl) as [_ Ho]. rewrite (run_once true e _ 1 f g (Ho i name params mem) (or_intror (conj eq_refl (Fn eq_refl eq_refl)))). reflexivity.
  - destruct (run_near true e (en_call en i name params mem) f g) as [H|[_ H]]; [rewrite H; apply near_refl|].
    destruct (run_wasm_in true e _ f g) as [[[[m [r i']] f']|er|] g']; try discriminate H. right. split; reflexivity.
Qed.
Lemma call_with_alloc_near s checks e en i f name calldata mem g : fine s checks en -> (s = true -> checks = true -> fe_returndata f = None) -> 0 < nlen calldata ->
  near s (call_with_alloc_in checks e en i f name calldata mem g) (call_with_alloc e en i f name calldata mem g).
Proof.
  intros F Fn L. unfold call_with_alloc_in, call_with_alloc. rewrite sdebug_true by lia. destruct (func en i f svm_alloc SigAlloc); [apply near_refl|].
  apply near_bind; [now apply wasmer_call_near|]. intros [[[[mem1 rets] i1] logs] f1] g1 _. apply near_same_bind. intros offset g2 _.
  apply near_same_bind. intros [] g3 Ea. rewrite sdebug_true by lia. apply near_same_bind. intros mem2 g4 _. apply wasmer_call_near; [exact F|].
  intros _ _. cbn. cbn in Ea. destruct (fe_returndata f1); [discriminate Ea|reflexivity].
Qed.
Lemma ensure_ctor_same checks template l name g : ensure_ctor_in checks template l name g = ensure_ctor template l name g.
Proof. unfold ensure_ctor_in, ensure_ctor, is_ctor. destruct (ctors_of l); [now rewrite sdebug_true|]. destruct checks; reflexivity. Qed.
Lemma usage_same checks cl l f g : validate_func_usage_in checks cl l f g = validate_func_usage cl l f g.
Proof. unfold validate_func_usage_in, validate_func_usage. destruct (cl_within_spawn cl); [apply ensure_ctor_same|reflexivity]. Qed.
Lemma instantiate_near s checks e en l f g : fine s checks en ->
  near s (instantiate_in checks e en l f g) (instantiate e en l f g).
Proof.
  intros F. unfold instantiate_in, instantiate. apply near_same_bind. intros c g1 _. destruct (en_compile en (cs_code c)); [apply near_refl|]. destruct checks; [destruct s|rewrite run_unchecked; apply near_refl].
  - left. destruct (F eq_refl eq_refl) as [Hi _]. rewrite (run_once true e _ 0 f g1 (Hi _) (or_introl eq_refl)). reflexivity.
  - destruct (run_near true e (en_instantiate en (cs_code c)) f g1) as [H|[_ H]]; [rewrite H; apply near_refl|].
    destruct (run_wasm_in true e _ f g1) as [[p|er|] g']; try discriminate H. right. split; reflexivity.
Qed.
Lemma instantiate_quiet e en l f g mem i f' g' : answers_once en -> instantiate e en l f g = (Ok (mem, i, f'), g') -> fe_returndata f' = fe_returndata f.
Proof.
  intros [Hi _] E0. unfold instantiate, sbind in E0. destruct (ssome (code_of l) g) as [[c|er|] g1]; try discriminate E0.
  destruct (en_compile en (cs_code c)); [discriminate E0|]. destruct (run_wasm e _ f g1) as [[[[m r] f1]|[msg f1]|] g2] eqn:Er; try discriminate E0.
  injection E0 as <- <- <- <-. exact (run_quiet _ _ _ _ _ _ _ _ (Hi _) Er).
Qed.
Lemma run_in_near s checks e en cl l f g : fine s checks en -> fe_returndata f = None ->
  near s (run_in checks e en cl l f g) (run e en cl l f g).
Proof.
  intros F Fn. unfold run_in, run. apply near_bind; [rewrite usage_same; apply near_refl|]. intros [] g1 _.
  apply near_bind; [now apply instantiate_near|]. intros [[mem i] f1] g2 Ei. apply near_same_bind. intros [] g3 _.
  destruct (func en i (with_memory f1) (cl_func cl) SigUnit); [apply near_refl|].
  assert (Fn' : s = true -> checks = true -> fe_returndata (with_memory f1) = None).
  { intros Hs Hc. cbn. rewrite (instantiate_quiet _ _ _ _ _ _ _ _ _ (F Hs Hc) Ei). exact Fn. }
  apply near_bind; [|intros; apply near_refl]. destruct (N.ltb_spec 0 (nlen (cl_input cl))) as [L|_]; [now apply call_with_alloc_near|now apply wasmer_call_near].
Qed.
Lemma exec_near s checks e en cl g : fine s checks en -> near s (exec_in checks e en cl g) (exec e en cl g).
Proof.
  intros F. unfold exec_in, exec. do 4 (apply near_same_bind; intros ? ? _). apply near_bind; [now apply run_in_near|]. intros; apply near_refl.
Qed.
Definition nearly {A B} (s : bool) (x y : option A * B) : Prop := x = y \/ (s = false /\ fst x = None).
Lemma exec_call_near s checks e en cl g : fine s checks en -> nearly s (exec_call_in checks e en cl g) (exec_call e en cl g).
Proof.
  intros F. unfold exec_call_in, exec_call. destruct (exec_near s checks e en cl g F) as [->|[Hs H]]; [left; reflexivity|].
  destruct (exec_in checks e en cl g) as [[r|er|] g']; try discriminate H. right. now split.
Qed.
Lemma transact_near s checks e en tx m name input g : fine s checks en ->
  nearly s (transact_in checks e en tx m name input g) (transact e en tx m name input g).
Proof.
  intros F. unfold transact_in, transact. destruct (build_call e tx m name input g) as [[cl|er|] g']; try (left; reflexivity). now apply exec_call_near.
Qed.
Lemma call_near s checks e en message g : fine s checks en -> nearly s (call_in checks e en message g) (rt_call e en message g).
Proof. intros F. unfold call_in, rt_call. destruct (decoded dec_transaction message); [now apply transact_near|left; reflexivity]. Qed.
Lemma verify_near s checks e en message g : fine s checks en -> nearly s (verify_in checks e en message g) (verify e en message g).
Proof. intros F. unfold verify_in, verify. destruct (decoded dec_transaction message); [now apply transact_near|left; reflexivity]. Qed.
Lemma spawn_near s checks e en ev message c g : fine s checks en ->
  spawn_in checks e en ev message c g = spawn e en ev message c g
  \/ (s = false /\ fst (fst (spawn_in checks e en ev message c g)) = None).
Proof.
  intros F. unfold spawn_in, spawn. destruct (decoded dec_spawn message) as [sp|]; [|left; reflexivity].
  destruct (template_sections e (sp_template sp) g) as [[l|er|] g1]; try (left; reflexivity). rewrite ensure_ctor_same.
  destruct (ensure_ctor (sp_template sp) l (sp_ctor sp) g1) as [[[]|[er lg]|] g2]; try (left; reflexivity).
  destruct (check_gas_for_func _ _ _ _ _ _) as [[[n|]|] c1]; try (left; reflexivity).
  destruct (account_create _ _ _ _ _ _ g2) as [[u|er|] g3]; try (left; reflexivity).
  unfold call_ctor_in, call_ctor. set (cl := mkCall _ _ _ _ _ _). destruct (exec_call_near s checks e en cl g3 F) as [->|[Hs H]]; [left; reflexivity|].
  destruct (exec_call_in checks e en cl g3) as [[r|] g4]; [discriminate H|]. right. now split.
Qed.
Lemma fine_false checks en : fine false checks en.
Proof. intros H. discriminate H. Qed.
Lemma fine_true checks en : answers_once en -> fine true checks en.
Proof. intros H _ _. exact H. Qed.
Lemma fine_unchecked en : fine true false en.
Proof. intros _ H. discriminate H. Qed.
