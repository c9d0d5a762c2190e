(** Proofs about acceptance. *)
From Coq Require Import String List NArith Arith Bool Lia ZifyBool ZifyNat ZifyN.
From Verif Require Import Base Text ReceiptModel ReceiptProofs GraphModel GraphSpec GraphProofs ProgramModel ProgramSpec
  ProgramProofs AcceptSpec.
Import ListNotations.
Open Scope string_scope.
Open Scope list_scope.
Open Scope N_scope.

(* ------------------------------------------------------------------------- *)
(** * Instructions *)

Lemma banned_refused i : refused_instr i = true <-> banned i.
Proof.
  destruct i; cbn [refused_instr banned]; try (split; [discriminate|tauto]).
  split.
  - intros H. destruct o; try discriminate H; first [left; reflexivity|right; split; [reflexivity|cbn; lia]].
  - intros [H|[H L]]; destruct o; try reflexivity; try discriminate H; cbn in L; lia.
Qed.

Lemma numbered_somewhere code k : existsb (fun f => existsb refused_instr (snd f)) (number_functions k code) = true <->
  exists i, somewhere code i /\ banned i.
Proof.
  rewrite existsb_exists. split.
  - intros ((f & b) & H & X). apply number_functions_spec in H as (n & Hn & ->). cbn [snd] in X.
    apply existsb_exists in X as (i & Hi & R). exists i. split; [|now apply banned_refused]. exists b. split; [|exact Hi].
    eapply nth_error_In; eauto.
  - intros (i & (b & Hb & Hi) & Bn). destruct (In_nth_error _ _ Hb) as [n Hn]. exists (k + N.of_nat n, b). split.
    + apply number_functions_spec. eauto.
    + cbn [snd]. apply existsb_exists. exists i. split; [exact Hi|now apply banned_refused].
Qed.

(* ------------------------------------------------------------------------- *)
(** * Exports *)

Lemma alloc_txt : svm_alloc_name = txt "svm_alloc". Proof. reflexivity. Qed.
Lemma verify_txt : svm_verify_name = txt "svm_verify". Proof. reflexivity. Qed.

Lemma export_type_fun md k t t' : export_type md k t -> export_type md k t' -> t = t'.
Proof.
  intros (g & n & r & E1 & E2 & E3 & E4) (g' & n' & r' & F1 & F2 & F3 & F4). assert (g = g') by congruence. subst g'.
  assert (n = n') by lia. congruence.
Qed.

Section Signatures.
  Variable md : wmodule.
  Let check name kind t := validate_func_signature name kind (nlen (import_names (entries (m_imports md))))
    (entries (m_functions md)) (entries (m_types md)) (fst t) (snd t).

  Lemma sig_type kind t : export_type md kind t ->
    export_func_signature kind (nlen (import_names (entries (m_imports md)))) (entries (m_functions md)) (entries (m_types md)) = Ok t.
  Proof.
    intros (g & n & r & -> & E2 & E3 & E4). unfold export_func_signature. rewrite <- function_imports_spec, E2.
    destruct (N.leb_spec (function_imports md) (function_imports md + N.of_nat n)); [|lia].
    replace (N.to_nat (function_imports md + N.of_nat n - function_imports md)) with n by lia. now rewrite E3, E4.
  Qed.
  Lemma check_good name kind t : export_type md kind t -> check name kind t = Ok tt.
  Proof.
    intros H. unfold check, validate_func_signature. rewrite (sig_type kind t H). cbn [bind].
    now rewrite (proj2 (value_types_eqb_spec _ _) eq_refl), (proj2 (value_types_eqb_spec _ _) eq_refl).
  Qed.
  Lemma check_fault name kind t o : required name t -> export_fault md (name, kind) o -> check name kind t = o.
  Proof.
    intros R F. inversion F as [n t0 k R' NF|n t0 i t' R' T Ne|n t0 i R' NT]; subst.
    - unfold check, validate_func_signature. destruct kind; try reflexivity. now destruct (NF index).
    - assert (t0 = t) as -> by (inversion R; subst; inversion R'; reflexivity || (exfalso; congruence)).
      unfold check, validate_func_signature. rewrite (sig_type _ _ T). cbn [bind].
      destruct (value_types_eqb (fst t') (fst t) && value_types_eqb (snd t') (snd t)) eqn:X; [|reflexivity].
      apply andb_true_iff in X as [X1 X2]. apply value_types_eqb_spec in X1, X2. exfalso. apply Ne. destruct t, t'. cbn [fst snd] in *. congruence.
    - unfold check, validate_func_signature, export_func_signature.
      destruct (N.leb_spec (nlen (import_names (entries (m_imports md)))) i) as [L|L]; [|reflexivity].
      destruct (nth_error (entries (m_functions md)) _) as [ref|] eqn:En; [|reflexivity].
      destruct (nth_error (entries (m_types md)) (N.to_nat ref)) as [s|] eqn:Et; [|reflexivity].
      exfalso. apply (NT s). eexists i, _, ref. split; [reflexivity|]. split; [|eauto]. rewrite function_imports_spec, N2Nat.id. lia.
  Qed.

  Lemma type_dec kind : (exists t, export_type md kind t) \/ (forall t, ~ export_type md kind t).
  Proof.
    destruct kind as [g| | |]; try (right; intros t (g & n & r & E & _); discriminate E).
    destruct (N.le_gt_cases (function_imports md) g) as [L|L].
    - destruct (nth_error (entries (m_functions md)) (N.to_nat (g - function_imports md))) as [r|] eqn:En.
      + destruct (nth_error (entries (m_types md)) (N.to_nat r)) as [t|] eqn:Et.
        * left. exists t, g, (N.to_nat (g - function_imports md)), r. repeat split; auto. lia.
        * right. intros t (g' & n & r' & E1 & E2 & E3 & E4). injection E1 as <-.
          replace (N.to_nat (g - function_imports md)) with n in En by lia. congruence.
      + right. intros t (g' & n & r' & E1 & E2 & E3 & E4). injection E1 as <-.
        replace (N.to_nat (g - function_imports md)) with n in En by lia. congruence.
    - right. intros t (g' & n & r' & E1 & E2 & E3 & E4). injection E1 as <-. lia.
  Qed.

  Lemma good_or_fault e : good_export md e \/ exists o, export_fault md e o.
  Proof.
    destruct e as [name kind]. assert (D : (exists t, required name t) \/ forall t, ~ required name t).
    { destruct (list_eq_dec N.eq_dec name (txt "svm_alloc")) as [->|A]; [left; eexists; constructor|].
      destruct (list_eq_dec N.eq_dec name (txt "svm_verify")) as [->|B]; [left; eexists; constructor|].
      right. intros t R. inversion R; congruence. }
    destruct D as [[t R]|D]; [|left; intros t R; now destruct (D t)].
    assert (U : forall t', required name t' -> t' = t).
    { intros t' R'. inversion R; subst; inversion R'; reflexivity || (exfalso; congruence). }
    destruct (type_dec kind) as [[t' T]|NT].
    - assert (D : t' = t \/ t' <> t).
      { destruct (value_types_eqb (fst t') (fst t) && value_types_eqb (snd t') (snd t)) eqn:X.
        - apply andb_true_iff in X as [X1 X2]. apply value_types_eqb_spec in X1, X2. left. destruct t, t'. cbn [fst snd] in *. congruence.
        - right. intros ->. rewrite (proj2 (value_types_eqb_spec _ _) eq_refl), (proj2 (value_types_eqb_spec _ _) eq_refl) in X. discriminate. }
      destruct D as [->|D].
      + left. intros t' R'. cbn [fst snd] in *. rewrite (U t' R'). exact T.
      + right. destruct T as (g & n & r & -> & T). eexists. eapply fault_type; eauto. exists g, n, r. auto.
    - right. destruct kind as [i| | |]; try (eexists; eapply fault_kind; [exact R|discriminate]).
      eexists. eapply fault_foreign; eauto.
  Qed.

  Definition seen (name : bytes) (l : list (bytes * internal)) : bool := existsb (fun e => bytes_eqb (fst e) name) l.
  Lemma seen_in name l : seen name l = true <-> In name (map fst l).
  Proof.
    unfold seen. rewrite existsb_exists, in_map_iff. split.
    - intros (e & H & E). apply bytes_eqb_spec in E. eauto.
    - intros (e & E & H). exists e. split; [exact H|]. now apply bytes_eqb_spec.
  Qed.
  Let run l a v := check_exports l (nlen (import_names (entries (m_imports md)))) (entries (m_functions md)) (entries (m_types md)) a v.

  Lemma run_good l : Forall (good_export md) l -> forall r a v,
    run (l ++ r) a v = run r (a || seen svm_alloc_name l) (v || seen svm_verify_name l).
  Proof.
    induction 1 as [|[name kind] l G _ IH]; intros r a v; [cbn [app seen existsb]; now rewrite !orb_false_r|].
    change (((name, kind) :: l) ++ r) with ((name, kind) :: l ++ r). unfold run. cbn [check_exports]. unfold seen. cbn [existsb fst]. fold (seen svm_alloc_name l) (seen svm_verify_name l).
    destruct (bytes_eqb name svm_alloc_name) eqn:E1.
    - apply bytes_eqb_spec in E1. subst name.
      pose proof (check_good svm_alloc_name kind ([I32], [I32]) (G ([I32], [I32]) required_alloc)) as C. unfold check in C. cbn [fst snd] in C. rewrite C. cbn [bind].
      fold (run (l ++ r) true v). rewrite IH. replace (bytes_eqb svm_alloc_name svm_verify_name) with false by reflexivity.
      rewrite orb_true_l. now rewrite orb_true_r.
    - destruct (bytes_eqb name svm_verify_name) eqn:E2.
      + apply bytes_eqb_spec in E2. subst name.
        pose proof (check_good svm_verify_name kind ([], [I32]) (G ([], [I32]) required_verify)) as C. unfold check in C. cbn [fst snd] in C. rewrite C. cbn [bind].
        fold (run (l ++ r) a true). rewrite IH. rewrite orb_true_l. rewrite orb_true_r. reflexivity.
      + fold (run (l ++ r) a v). rewrite IH. reflexivity.
  Qed.
  Lemma run_fault e r a v o : export_fault md e o -> run (e :: r) a v = match o with Ok _ => run (e :: r) a v | Err x => Err x | Panic => Panic end.
  Proof.
    intros F. destruct e as [name kind]. assert (R : exists t, required name t) by (inversion F; eauto). destruct R as [t R].
    pose proof (check_fault name kind t o R F) as C. unfold check in C. destruct o as [u|x|]; [reflexivity| |]; unfold run; cbn [check_exports].
    - inversion R; subst; cbn [fst snd] in C.
      + replace (bytes_eqb (txt "svm_alloc") svm_alloc_name) with true by reflexivity. rewrite alloc_txt, C. reflexivity.
      + replace (bytes_eqb (txt "svm_verify") svm_alloc_name) with false by reflexivity.
        replace (bytes_eqb (txt "svm_verify") svm_verify_name) with true by reflexivity. rewrite verify_txt, C. reflexivity.
    - inversion R; subst; cbn [fst snd] in C.
      + replace (bytes_eqb (txt "svm_alloc") svm_alloc_name) with true by reflexivity. rewrite alloc_txt, C. reflexivity.
      + replace (bytes_eqb (txt "svm_verify") svm_alloc_name) with false by reflexivity.
        replace (bytes_eqb (txt "svm_verify") svm_verify_name) with true by reflexivity. rewrite verify_txt, C. reflexivity.
  Qed.
  Lemma fault_not_ok e u : ~ export_fault md e (Ok u).
  Proof. intros F. inversion F. Qed.

  Lemma first_fault l : Forall (good_export md) l \/
    exists l1 e r o, l = l1 ++ e :: r /\ Forall (good_export md) l1 /\ export_fault md e o.
  Proof.
    induction l as [|e l IH]; [left; constructor|]. destruct (good_or_fault e) as [G|[o F]].
    - destruct IH as [IH|(l1 & e' & r & o & -> & A & B)]; [left; now constructor|].
      right. exists (e :: l1), e', r, o. split; [reflexivity|]. split; [now constructor|exact B].
    - right. exists [], e, l, o. split; [reflexivity|]. split; [constructor|exact F].
  Qed.

  Lemma exports_good : exports_ok md -> module_validate_exports md = Ok tt.
  Proof.
    intros [G Nm]. unfold module_validate_exports.
    pose proof (run_good _ G [] false false) as E. rewrite app_nil_r in E. unfold run in E. rewrite E. cbn [check_exports bind fst snd orb].
    rewrite (proj2 (seen_in svm_alloc_name _) (Nm _ _ required_alloc)), (proj2 (seen_in svm_verify_name _) (Nm _ _ required_verify)). reflexivity.
  Qed.
  Lemma exports_bad o : exports_fault md o -> module_validate_exports md = o /\ o <> Ok tt.
  Proof.
    intros F. inversion F as [l e r o' E G Fe|G A|G A B]; subst.
    - unfold module_validate_exports. pose proof (run_good _ G (e :: r) false false) as X. unfold run in X. rewrite E, X.
      pose proof (run_fault e r (false || seen svm_alloc_name l) (false || seen svm_verify_name l) o Fe) as Y. unfold run in Y.
      destruct o as [u|x|]; [destruct (fault_not_ok _ _ Fe)| |]; rewrite Y; cbn [bind]; split; (reflexivity || discriminate).
    - split; [|discriminate]. unfold module_validate_exports. pose proof (run_good _ G [] false false) as X. rewrite app_nil_r in X. unfold run in X. rewrite X.
      cbn [check_exports bind fst snd orb]. destruct (seen svm_alloc_name (entries (m_exports md))) eqn:S1; [|reflexivity].
      apply seen_in in S1. now destruct A.
    - split; [|discriminate]. unfold module_validate_exports. pose proof (run_good _ G [] false false) as X. rewrite app_nil_r in X. unfold run in X. rewrite X.
      cbn [check_exports bind fst snd orb]. rewrite (proj2 (seen_in svm_alloc_name _) A).
      destruct (seen svm_verify_name (entries (m_exports md))) eqn:S1; [|reflexivity]. apply seen_in in S1. now destruct B.
  Qed.
  Lemma exports_total : exports_ok md \/ exists o, exports_fault md o.
  Proof.
    destruct (first_fault (entries (m_exports md))) as [G|(l & e & r & o & E & G & F)]; [|right; exists o; eapply fault_first; eauto].
    destruct (seen svm_alloc_name (entries (m_exports md))) eqn:S1.
    - apply seen_in in S1. destruct (seen svm_verify_name (entries (m_exports md))) eqn:S2.
      + apply seen_in in S2. left. split; [exact G|]. intros name t R. inversion R; subst; assumption.
      + right. eexists. apply fault_no_verify; [exact G|exact S1|]. intros X. apply seen_in in X. rewrite verify_txt in S2. congruence.
    - right. eexists. apply fault_no_alloc; [exact G|]. intros X. apply seen_in in X. rewrite alloc_txt in S1. congruence.
  Qed.
End Signatures.

(* ------------------------------------------------------------------------- *)
(** * Modules *)

Definition read_program (md : wmodule) (code : list (list instr)) : program :=
  mkProgram (import_names (entries (m_imports md))) (read_exports (entries (m_exports md)) [])
    (number_functions (function_imports md) code).

Lemma read_imports_is md : read_imports md =
  if function_imports md <=? 65535 then Ok (import_names (entries (m_imports md))) else Err TooManyFunctionImports.
Proof.
  rewrite function_imports_spec. unfold read_imports. destruct (m_imports md); reflexivity.
Qed.

Lemma new_accepted md v code : accepted md v code -> program_new (Some md) v = Ok (read_program md code).
Proof.
  intros (C & I & F & E & L). unfold program_new. rewrite C, read_imports_is. destruct (N.leb_spec (function_imports md) 65535); [|lia]. cbn [bind].
  rewrite <- function_imports_spec. unfold validate_no_floats. cbn [p_functions].
  destruct (existsb _ (number_functions (function_imports md) code)) eqn:X.
  { apply numbered_somewhere in X as (i & S1 & B). now destruct (F i S1). }
  cbn [bind]. replace (if v then module_validate_exports md else Ok tt) with (@Ok program_error unit tt).
  2:{ destruct v; [symmetry; apply exports_good; auto|reflexivity]. }
  cbn [bind]. unfold nlen in L. unfold nlen. rewrite number_functions_length.
  destruct (N.ltb_spec u16_max (N.of_nat (length code))) as [H1|H1]; [unfold u16_max in H1; lia|]. reflexivity.
Qed.
Definition forget {E A} (o : outcome E A) : outcome E unit := match o with Ok _ => Ok tt | Err e => Err e | Panic => Panic end.
Lemma new_refused m v o : refused v m o -> forget (program_new m v) = o /\ o <> Ok tt.
Proof.
  intros R. inversion R as [|md C|md code C I|md code i C I S1 B|md code o' C I F V X|md code C I F E L]; subst; unfold program_new.
  - split; [reflexivity|discriminate].
  - rewrite C. split; [reflexivity|discriminate].
  - rewrite C, read_imports_is. destruct (N.leb_spec (function_imports md) 65535); [lia|]. split; [reflexivity|discriminate].
  - rewrite C, read_imports_is. destruct (N.leb_spec (function_imports md) 65535); [|lia]. cbn [bind].
    unfold validate_no_floats. cbn [p_functions]. rewrite (proj2 (numbered_somewhere code _)); [|eauto]. split; [reflexivity|discriminate].
  - rewrite C, read_imports_is. destruct (N.leb_spec (function_imports md) 65535); [|lia]. cbn [bind].
    unfold validate_no_floats. cbn [p_functions]. destruct (existsb _ (number_functions _ code)) eqn:Y.
    { apply numbered_somewhere in Y as (i & S1 & B). now destruct (F i S1). }
    cbn [bind]. destruct (exports_bad md o X) as [Z Nz]. rewrite Z. split; [|exact Nz]. destruct o as [[]| |]; [now destruct Nz| |]; reflexivity.
  - rewrite C, read_imports_is. destruct (N.leb_spec (function_imports md) 65535); [|lia]. cbn [bind].
    unfold validate_no_floats. cbn [p_functions]. destruct (existsb _ (number_functions _ code)) eqn:Y.
    { apply numbered_somewhere in Y as (i & S1 & B). now destruct (F i S1). }
    cbn [bind]. replace (if v then module_validate_exports md else Ok tt) with (@Ok program_error unit tt).
    2:{ destruct v; [symmetry; apply exports_good; auto|reflexivity]. }
    cbn [bind]. unfold nlen in L. unfold nlen. rewrite number_functions_length.
    destruct (N.ltb_spec u16_max (N.of_nat (length code))) as [H1|H1]; [|unfold u16_max in H1; lia]. split; [reflexivity|discriminate].
Qed.
Lemma new_total m v : (exists md code, m = Some md /\ accepted md v code) \/ exists o, refused v m o.
Proof.
  destruct m as [md|]; [|right; eexists; constructor]. destruct (m_code md) as [code|] eqn:C; [|right; eexists; now apply refused_no_code].
  destruct (N.le_gt_cases (function_imports md) 65535) as [I|I]; [|right; eexists; eapply refused_imports; eauto].
  destruct (existsb (fun f => existsb refused_instr (snd f)) (number_functions 0 code)) eqn:Y.
  { apply numbered_somewhere in Y as (i & S1 & B). right. eexists. eapply refused_floats; eauto. }
  assert (F : float_free code). { intros i S1 B. assert (X : exists i, somewhere code i /\ banned i) by eauto. apply (numbered_somewhere code 0) in X. congruence. }
  assert (E : (v = true -> exports_ok md) \/ (v = true /\ exists o, exports_fault md o)).
  { destruct v; [|left; discriminate]. destruct (exports_total md); auto. }
  destruct E as [E|[V [o E]]]; [|right; exists o; eapply refused_exports; eauto].
  destruct (N.le_gt_cases (nlen code) 65535) as [L|L]; [left; exists md, code; unfold accepted; auto 10|].
  right. eexists. eapply refused_functions; eauto.
Qed.

(** The exports read last win. *)
Lemma insert_export_in name i l : NoDup (map fst l) ->
  NoDup (map fst (insert_export name i l)) /\
  forall n j, In (n, j) (insert_export name i l) <-> (n = name /\ j = i) \/ (n <> name /\ In (n, j) l).
Proof.
  induction l as [|[n0 j0] l IH]; intros ND; cbn [insert_export].
  - split; [repeat constructor; auto|]. intros n j. cbn [In]. split.
    + intros [E|[]]. injection E as <- <-. auto.
    + intros [[-> ->]|[_ []]]. auto.
  - cbn [map fst] in ND. inversion ND as [|? ? N1 N2]; subst. destruct (IH N2) as [I1 I2].
    destruct (bytes_eqb n0 name) eqn:E.
    + apply bytes_eqb_spec in E. subst n0. split; [cbn [map fst]; now constructor|]. intros n j. cbn [In]. split.
      * intros [X|X]; [injection X as <- <-; auto|]. right. split; [|auto]. intros ->. apply N1. apply in_map_iff. exists (name, j). auto.
      * intros [[-> ->]|[Ne [X|X]]]; auto. injection X as <- <-. now destruct Ne.
    + assert (Ne : n0 <> name) by (intros ->; now rewrite (proj2 (bytes_eqb_spec _ _) eq_refl) in E). split.
      * cbn [map fst]. constructor; [|exact I1]. intros X. apply in_map_iff in X as ((n & j) & <- & X). cbn [fst] in *.
        apply I2 in X as [[-> _]|[_ X]]; [now destruct Ne|]. apply N1. apply in_map_iff. exists (n, j). auto.
      * intros n j. cbn [In]. rewrite I2. split.
        -- intros [X|X]; [injection X as <- <-; auto|tauto].
        -- intros [X|[X [Y|Y]]]; auto.
Qed.
Lemma read_exports_in l : forall acc, NoDup (map fst acc) ->
  NoDup (map fst (read_exports l acc)) /\
  forall name i, In (name, i) (read_exports l acc) <->
    (exists l1 r, l = l1 ++ (name, IntFunction i) :: r /\ forall j, ~ In (name, IntFunction j) r) \/
    ((forall j, ~ In (name, IntFunction j) l) /\ In (name, i) acc).
Proof.
  induction l as [|[n0 k0] l IH]; intros acc ND.
  - split; [exact ND|]. intros name i. cbn [read_exports]. split; [intros H; right; auto|].
    intros [(l1 & r & E & _)|[_ H]]; [destruct l1; discriminate E|exact H].
  - assert (Skip : (forall i, k0 <> IntFunction i) ->
      NoDup (map fst (read_exports l acc)) /\
      forall name i, In (name, i) (read_exports l acc) <->
      (exists l1 r, (n0, k0) :: l = l1 ++ (name, IntFunction i) :: r /\ forall j, ~ In (name, IntFunction j) r) \/
      ((forall j, ~ In (name, IntFunction j) ((n0, k0) :: l)) /\ In (name, i) acc)).
    { intros NF. destruct (IH acc ND) as [I1 I2]. split; [exact I1|]. intros name i. rewrite I2. split.
      - intros [(l1 & r & -> & A)|[A B]]; [left; exists ((n0, k0) :: l1), r; auto|right; split; [|exact B]].
        intros j [X|X]; [injection X as _ X; now destruct (NF j)|exact (A j X)].
      - intros [(l1 & r & E & A)|[A B]]; [|right; split; [intros j X; apply (A j); now right|exact B]].
        destruct l1 as [|e l1]; [injection E as _ E _; now destruct (NF i)|]. injection E as _ E. left. exists l1, r. auto. }
    cbn [read_exports]. destruct k0 as [i0| | |]; try (apply Skip; discriminate).
    destruct (insert_export_in n0 i0 acc ND) as [J1 J2]. destruct (IH _ J1) as [I1 I2]. split; [exact I1|].
    intros name i. rewrite I2, J2. split.
    + intros [(l1 & r & -> & A)|[A [[-> ->]|[Ne B]]]].
      * left. exists ((n0, IntFunction i0) :: l1), r. auto.
      * left. exists [], l. auto.
      * right. split; [|exact B]. intros j [X|X]; [injection X as X _; congruence|exact (A j X)].
    + intros [(l1 & r & E & A)|[A B]].
      * destruct l1 as [|e l1].
        -- injection E as -> -> <-. right. auto.
        -- injection E as _ E. left. exists l1, r. auto.
      * right. split; [intros j X; apply (A j); now right|]. right. split; [|exact B]. intros ->. apply (A i0). now left.
Qed.

Lemma imported_is md : import_names (entries (m_imports md)) = map fst (imported_functions md).
Proof.
  unfold imported_functions. induction (entries (m_imports md)) as [|[[a b] k] l IH]; [reflexivity|].
  destruct k; cbn [filter import_names snd map fst]; congruence.
Qed.
Lemma program_reads md code : reads_as md code (read_program md code).
Proof.
  split; [apply imported_is|]. split; [|split].
  - intros f body. unfold get_func, read_program. cbn [p_functions]. split.
    + intros H. apply assoc_in in H. apply number_functions_spec in H as (n & A & B). eauto.
    + intros (n & A & B). apply in_assoc; [apply number_functions_nodup|]. apply number_functions_spec. eauto.
  - apply number_functions_length.
  - destruct (read_exports_in (entries (m_exports md)) []) as [A B]; [constructor|]. split; [exact A|].
    intros name i. cbn [read_program p_exports]. rewrite B. split; [intros [H|[_ []]]; exact H|auto].
Qed.

(* ------------------------------------------------------------------------- *)
(** * The fixed-gas rules *)

Lemma fine_harmless p f i : fine p f i <-> forall off e, ~ offence p f off i e.
Proof.
  split.
  - intros F off e O. inversion O; subst; cbn [fine] in F; try contradiction.
    + destruct F as [F _]. unfold u16_max in F. lia.
    + destruct F as [_ F]. apply F; [|reflexivity]. now apply imported_spec.
  - intros H. destruct i; cbn [fine]; auto.
    + exact (H 0 _ (offence_loop p f 0)).
    + split.
      * destruct (N.le_gt_cases target u16_max) as [L|L]; [exact L|]. exfalso. exact (H 0 _ (offence_far p f 0 target L)).
      * intros Im ->. apply imported_spec in Im. destruct (N.le_gt_cases f u16_max) as [L|L].
        -- exact (H 0 _ (offence_self p f 0 L Im)).
        -- exact (H 0 _ (offence_far p f 0 f L)).
    + exact (H 0 _ (offence_indirect p f 0 ty)).
Qed.
Lemma fine_body p f body : Forall (fine p f) body <-> harmless p (f, body).
Proof.
  rewrite Forall_forall. unfold harmless. cbn [fst snd]. split.
  - intros H i off e Hi. exact (proj1 (fine_harmless p f i) (H i Hi) off e).
  - intros H i Hi. apply fine_harmless. intros off e. now apply H.
Qed.
Lemma fine_bodies p fs : Forall (fun fb => Forall (fine p (fst fb)) (snd fb)) fs <-> Forall (harmless p) fs.
Proof.
  rewrite !Forall_forall. split; intros H [f b] Hf; [apply fine_body|apply <- fine_body]; exact (H (f, b) Hf).
Qed.

Lemma offence_op p f off i e g : offence p f off i e -> validate_op p f off i g = Err e.
Proof.
  intros O. inversion O as [|t|t L|L Im]; subst; cbn [validate_op]; try reflexivity.
  - destruct (N.leb_spec t u16_max) as [X|X]; [unfold u16_max in X; lia|reflexivity].
  - destruct (N.leb_spec f u16_max) as [X|X]; [|unfold u16_max in X; lia]. rewrite (proj2 (imported_spec p f) Im), N.eqb_refl. reflexivity.
Qed.
Lemma offence_body p f pre i post e : forall off g, harmless p (f, pre) -> offence p f (off + nlen pre) i e ->
  validate_body p f off (pre ++ i :: post) g = Err e.
Proof.
  induction pre as [|x pre IH]; intros off g H O; cbn [app validate_body].
  - rewrite nlen_nil, N.add_0_r in O. now rewrite (offence_op _ _ _ _ _ g O).
  - assert (Hx : fine p f x) by (apply fine_harmless; intros o e'; apply (H x); now left).
    assert (V : exists g1, validate_op p f off x g = Ok g1).
    { destruct (validate_body_spec p f [x] off g) as [(_ & g' & V & _)|(Nf & _)]; [|destruct Nf; auto].
      cbn [validate_body] in V. destruct (validate_op p f off x g) as [g1| |]; cbn [bind] in V; [eauto|discriminate V|discriminate V]. }
    destruct V as [g1 V]. rewrite V. cbn [bind]. apply IH.
    + intros y o e' Hy. apply (H y). now right.
    + rewrite nlen_cons in O. replace (off + 1 + nlen pre) with (off + (1 + nlen pre)) by lia. exact O.
Qed.
Lemma offence_functions p before f pre i post after e : forall g, Forall (harmless p) before -> harmless p (f, pre) ->
  offence p f (nlen pre) i e -> validate_functions p (before ++ (f, pre ++ i :: post) :: after) g = Err e.
Proof.
  intros g H. revert g. induction H as [|[f0 b0] before H0 _ IH]; intros g Hp O; cbn [app validate_functions].
  - rewrite (offence_body p f pre i post e 0 _ Hp); [reflexivity|]. now rewrite N.add_0_l.
  - destruct (validate_body_spec p f0 b0 0 (add_target f0 g)) as [(_ & g1 & V & _)|(Nf & _)]; [|destruct Nf; now apply fine_body].
    rewrite V. cbn [bind]. now apply IH.
Qed.
Lemma first_offence_body p f body : harmless p (f, body) \/
  exists pre i post e, body = pre ++ i :: post /\ harmless p (f, pre) /\ offence p f (nlen pre) i e.
Proof.
  assert (K : forall done, harmless p (f, done) -> harmless p (f, done ++ body) \/
    exists pre i post e, done ++ body = pre ++ i :: post /\ harmless p (f, pre) /\ offence p f (nlen pre) i e).
  2:{ apply (K []). intros i off e []. }
  induction body as [|x body IH]; intros done H; [left; now rewrite app_nil_r|].
  assert (D : fine p f x \/ exists e, offence p f (nlen done) x e).
  { destruct (fine_dec p f x) as [F|F]; [auto|]. right. destruct x; cbn [fine] in F; try tauto; try (eexists; constructor; fail).
    destruct (N.le_gt_cases target u16_max) as [L|L]; [|eexists; now apply offence_far].
    destruct (is_imported p target) eqn:Im; [exfalso; apply F; split; [exact L|discriminate]|].
    destruct (N.eq_dec target f) as [->|Ne]; [|exfalso; apply F; auto]. apply imported_spec in Im. eexists. now apply offence_self. }
  destruct D as [F|[e O]].
  - destruct (IH (done ++ [x])) as [X|X].
    + intros i off e Hi. cbn [fst snd] in Hi. apply in_app_iff in Hi as [Hi|[->|[]]]; [exact (H i off e Hi)|]. exact (proj1 (fine_harmless p f i) F off e).
    + left. now rewrite <- app_assoc in X.
    + right. rewrite <- app_assoc in X. exact X.
  - right. exists done, x, body, e. auto.
Qed.
Lemma first_offence p fs : Forall (harmless p) fs \/
  exists before f pre i post after e, fs = before ++ (f, pre ++ i :: post) :: after /\ Forall (harmless p) before /\
    harmless p (f, pre) /\ offence p f (nlen pre) i e.
Proof.
  induction fs as [|[f b] fs IH]; [left; constructor|].
  destruct (first_offence_body p f b) as [H|(pre & i & post & e & -> & A & B)].
  - destruct IH as [IH|(before & f' & pre & i & post & after & e & -> & A & B)]; [left; now constructor|].
    right. exists ((f, b) :: before), f', pre, i, post, after, e. split; [reflexivity|]. split; [now constructor|exact B].
  - right. exists [], f, pre, i, post, fs, e. auto.
Qed.
Lemma rules_broken p e : breaks_rules p e -> validate_wasm p false = Err e.
Proof.
  intros B. unfold validate_wasm. inversion B as [before f pre i post after e' E H1 H2 O|f H L]; subst.
  - now rewrite E, (offence_functions p before f pre i post after e [] H1 H2 O).
  - destruct (validate_functions_spec p (p_functions p) []) as [(F & g & V & Bc)|(F & _)]; [|destruct F; now apply fine_bodies].
    rewrite V. cbn [bind]. pose proof (proj1 (fine_all p) F) as F'.
    destruct (build_calls_spec _ [] wf_empty (calls_not_self p F')) as (g0 & B0 & W & _ & Ed).
    rewrite Bc in B0. apply Some_inj in B0. subst g0. unfold find_cycles.
    destruct (sort_spec g false W) as [(l & -> & A & _)|(g' & l & _ & C & _ & _ & _ & _ & _ & _ & _ & ->)]; cbn [obind]; [|reflexivity].
    exfalso. apply (A f). eapply leads_mono; [|exact L]. intros a b X. apply Ed. left. now apply program_edges.
Qed.
Lemma rules_total p : acceptable p \/ exists e, breaks_rules p e.
Proof.
  destruct (first_offence p (p_functions p)) as [H|(before & f & pre & i & post & after & e & E & A & B & O)]; [|right; exists e; eapply breaks_first; eauto].
  destruct (validate_spec p) as [[_ A]|(e & V & Na)]; [auto|]. right. exists (CallCycle []).
  unfold validate_wasm in V.
  destruct (validate_functions_spec p (p_functions p) []) as [(F & g & V' & Bc)|(F & _)]; [|destruct F; now apply fine_bodies].
  rewrite V' in V. cbn [bind] in V. pose proof (proj1 (fine_all p) F) as F'.
  destruct (build_calls_spec _ [] wf_empty (calls_not_self p F')) as (g0 & B0 & W & _ & Ed).
  rewrite Bc in B0. apply Some_inj in B0. subst g0. unfold find_cycles in V.
  destruct (sort_spec g false W) as [(l & Es & A & _)|(g' & l & _ & C & _)].
  - rewrite Es in V. discriminate V.
  - destruct C as [x C]. apply (breaks_circle p x H). eapply leads_mono; [|exact C]. intros a b X. apply Ed in X as [X|X]; [now apply program_edges|destruct X].
Qed.
Lemma rules_iff p e : validate_wasm p false = Err e <-> breaks_rules p e.
Proof.
  split; [|apply rules_broken]. intros V. destruct (rules_total p) as [A|[e' B]].
  - destruct (validate_spec p) as [[V' _]|(e' & V' & Na)]; [congruence|now destruct Na].
  - pose proof (rules_broken p e' B). congruence.
Qed.

(* ------------------------------------------------------------------------- *)
(** * Deployable modules *)

Lemma read_occurs md code f i : occurs (read_program md code) f i <->
  exists n body, f = function_imports md + N.of_nat n /\ nth_error code n = Some body /\ In i body.
Proof.
  unfold occurs, read_program. cbn [p_functions]. split.
  - intros (body & H & Hi). apply number_functions_spec in H as (n & A & B). eauto.
  - intros (n & body & A & B & Hi). exists body. split; [|exact Hi]. apply number_functions_spec. eauto.
Qed.
Lemma read_somewhere md code i : (exists f, occurs (read_program md code) f i) <-> somewhere code i.
Proof.
  split.
  - intros [f H]. apply read_occurs in H as (n & body & _ & B & Hi). exists body. split; [eapply nth_error_In; eauto|exact Hi].
  - intros (body & Hb & Hi). destruct (In_nth_error _ _ Hb) as [n Hn]. eexists. apply read_occurs. eauto.
Qed.
Lemma read_calls md code f g : calls (read_program md code) f g <-> module_calls md code f g.
Proof.
  unfold calls, module_calls. rewrite read_occurs. unfold read_program. cbn [p_imports]. rewrite <- function_imports_spec. split.
  - intros ((n & body & A & B & Hi) & L). exists n, body. auto.
  - intros (n & body & A & B & Hi & L). split; [eauto|exact L].
Qed.
Lemma read_acceptable md code : acceptable (read_program md code) <->
  ~ somewhere code Loop /\ (forall t, ~ somewhere code (CallIndirect t)) /\
    (forall t, somewhere code (Call t) -> t <= 65535) /\ acyclic (module_calls md code).
Proof.
  unfold acceptable. split; intros (A & B & C & D).
  - split; [intros X; apply (read_somewhere md) in X as [f X]; exact (A f X)|].
    split; [intros t X; apply (read_somewhere md) in X as [f X]; exact (B f t X)|].
    split; [intros t X; apply (read_somewhere md) in X as [f X]; exact (C f t X)|].
    intros x X. apply (D x). eapply leads_mono; [|exact X]. intros a b. apply read_calls.
  - split; [intros f X; apply A; apply (read_somewhere md); eauto|].
    split; [intros f t X; apply (B t); apply (read_somewhere md); eauto|].
    split; [intros f t X; apply (C t); apply (read_somewhere md); eauto|].
    intros x X. apply (D x). eapply leads_mono; [|exact X]. intros a b. apply read_calls.
Qed.
Lemma new_iff m v p : program_new m v = Ok p <-> exists md code, m = Some md /\ accepted md v code /\ p = read_program md code.
Proof.
  split.
  - intros H. destruct (new_total m v) as [(md & code & -> & A)|[o R]].
    + exists md, code. split; [reflexivity|]. split; [exact A|]. rewrite (new_accepted _ _ _ A) in H. congruence.
    + destruct (new_refused _ _ _ R) as [E Ne]. rewrite H in E. cbn [forget] in E. congruence.
  - intros (md & code & -> & A & ->). now apply new_accepted.
Qed.
Lemma validated_ok p : validate_wasm p false = Ok tt <-> acceptable p.
Proof.
  destruct (validate_spec p) as [[V A]|(e & V & A)]; rewrite V; split; auto; [discriminate|intros X; now destruct A].
Qed.
