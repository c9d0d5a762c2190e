(** Proofs about linking. *)
From Coq Require Import String List NArith ZArith Bool Lia.
From Coq Require Import ZifyBool ZifyNat ZifyN.
From Verif Require Import Base Text CodecModel CodecSpec CodecProofs StorageModel StorageSpec ReceiptModel SectionModel GraphModel ProgramModel GlobalModel GlobalSpec GlobalProofs RuntimeModel RuntimeSpec RuntimeProofs.
From Verif Require ReceiptProofs ProgramProofs.
From Verif Require Import EndpointSpec EndpointProofs MacroModel MacroSpec MacroProofs LinkModel LinkSpec.
Import ListNotations.
Open Scope list_scope.
Open Scope N_scope.

(* ------------------------------------------------------------------------- *)
(** * Which modules link *)

Lemma call_links c : (forall m n t, In (m, n, t) (imports_of c) -> resolves m n t = true) <-> works c.
Proof.
  assert (E : forallb (fun '(m, n, t) => resolves m n t) (imports_of c) = true <-> works c) by (destruct c; vm_compute; split; intros; try discriminate; tauto).
  rewrite <- E, forallb_forall. split.
  - intros H [[m n] t] I. now apply H.
  - intros H m n t I. exact (H (m, n, t) I).
Qed.
Lemma lookup_in {A} k (l : list (bytes * A)) a : lookup k l = Some a -> In (k, a) l.
Proof.
  induction l as [|[k' a'] l IH]; cbn [lookup]; [discriminate|]. destruct (bytes_eqb k k') eqn:Ek.
  - apply ReceiptProofs.bytes_eqb_spec in Ek. subst k'. intros [= <-]. now left.
  - intros H. right. now apply IH.
Qed.
Lemma resolves_registered m n t : resolves m n t = true -> m = txt "svm"%string /\ In (n, t) registered.
Proof.
  unfold resolves. destruct (lookup m import_object) as [ns|] eqn:E; [|discriminate]. apply lookup_in in E.
  destruct E as [[= <- <-]|[]]. destruct (lookup n registered) as [t'|] eqn:En; [|discriminate]. intros H. split; [reflexivity|].
  apply lookup_in in En. assert (t = t') as ->; [|exact En]. destruct t as [a b], t' as [a' b']. unfold func_type_eqb in H. cbn [fst snd] in H.
  apply andb_prop in H. destruct H as [Ha Hb]. f_equal; now apply ProgramProofs.value_types_eqb_spec.
Qed.
Lemma links_calls m calls : compiled_with m calls -> (links m = true <-> forall c, In c calls -> works c).
Proof.
  intros [Fn Im]. unfold links. rewrite forallb_forall. split.
  - intros H c Ic. apply call_links. intros mo na t It.
    assert (X : In (mo, na, Some t) (imports_in m)) by (apply Im; eauto). unfold imports_in in X. apply in_flat_map in X as ([[mo' na'] e] & Ii & X).
    specialize (H _ Ii). cbv beta iota in H. destruct e as [ty| | |]; try destruct X as [X|[]]; try contradiction X. injection X as <- <- E. now rewrite E in H.
  - intros H [[mo na] e] I. destruct (Fn _ _ _ I) as [ty ->].
    assert (X : In (mo, na, nth_error (entries (m_types m)) (N.to_nat ty)) (imports_in m)).
    { unfold imports_in. apply in_flat_map. exists (mo, na, ExtFunction ty). split; [exact I|now left]. }
    apply Im in X as (c & t & Ic & It & ->). exact (proj2 (call_links c) (H c Ic) mo na t It).
Qed.
(** The calls around the functions of an accepted contract. *)
Lemma in_combine_nth {A B} (l : list A) (l' : list B) a b : In (a, b) (combine l l') -> exists i, nth_error l i = Some a /\ nth_error l' i = Some b.
Proof.
  revert l'. induction l as [|x l IH]; intros [|y l']; cbn [combine]; intros I; try contradiction I. destruct I as [I|I]; [injection I as <- <-; exists O; auto|].
  destruct (IH l' I) as (i & E1 & E2). exists (S i). auto.
Qed.
Lemma nth_in_combine {A B} (l : list A) (l' : list B) a b i : nth_error l i = Some a -> nth_error l' i = Some b -> In (a, b) (combine l l').
Proof.
  revert l' i. induction l as [|x l IH]; intros [|y l'] [|i]; cbn [combine nth_error]; try discriminate; [intros [= ->] [= ->]; now left|]. intros E1 E2. right. eauto.
Qed.
Lemma contract_works order t g me body : macro_expand order t = Some (g, me) ->
  (forall c, In c (contract_calls body t g) -> works c) <->
  (forall f, In f (tp_functions t) -> ~ takes_funds f) /\ (forall f c, In f (tp_functions t) -> In c (body (fn_name f)) -> works c).
Proof.
  intros E. pose proof (items_become order t g me E) as B. unfold contract_calls. split.
  - intros H. split.
    + intros f If [He Ha]. apply In_nth_error in If as [i Ef]. pose proof (Forall2_at _ _ _ B i) as Q. rewrite Ef in Q.
      destruct (nth_error (ge_items g) i) as [x|] eqn:Ex; [|contradiction Q]. destruct Q as [h _ Hh|N|N]; [|contradiction|contradiction].
      destruct Hh as [Na|a s _ _ _|a h _ _ _ _ _|a _ _ _ _]; [contradiction| | |];
        (assert (W : works CValue); [|exact W]); apply H; right; apply in_flat_map; eexists (f, _);
        (split; [eapply nth_in_combine; [exact Ef|exact Ex]|]); cbn [fst snd around]; apply in_or_app; left; now left.
    + intros f c If Ic. apply In_nth_error in If as [i Ef]. pose proof (Forall2_at _ _ _ B i) as Q. rewrite Ef in Q.
      destruct (nth_error (ge_items g) i) as [x|] eqn:Ex; [|contradiction Q]. apply H. right. apply in_flat_map. exists (f, x).
      split; [eapply nth_in_combine; [exact Ef|exact Ex]|]. cbn [fst snd]. apply in_or_app. now right.
  - intros [H1 H2] c [<-|Ic]; [exact Logic.I|]. apply in_flat_map in Ic as ([f x] & Ip & Ic). cbn [fst snd] in Ic.
    apply in_combine_nth in Ip as (i & Ef & Ex). assert (If : In f (tp_functions t)) by (eapply nth_error_In; exact Ef).
    apply in_app_or in Ic as [Ic|Ic]; [|now apply (H2 f)]. pose proof (Forall2_at _ _ _ B i) as Q. rewrite Ef, Ex in Q.
    destruct Q as [h He Hh|N|N]; [|destruct Ic|destruct Ic]. cbn [around] in Ic.
    assert (h = None) as ->.
    { destruct Hh as [Na|a s Ia Na _|a h Ia Na _ _ _|a Ia Na _ _]; [reflexivity| | |]; exfalso; apply (H1 f If); (split; [exact He|]); exists a; auto. }
    cbn [app] in Ic. apply in_app_or in Ic as [Ic|Ic].
    + destruct (fn_params f); [destruct Ic|]. destruct Ic as [<-|[]]. exact Logic.I.
    + destruct (fn_output f); [|destruct Ic]. destruct Ic as [<-|[<-|[]]]; exact Logic.I.
Qed.

(* ------------------------------------------------------------------------- *)
(** * Validation does not look at the names *)

Lemma import_names_renamed r l :
  import_names (map (fun '(module, name, e) => (r (module, name), e)) l) = map r (import_names l).
Proof.
  induction l as [|[[mo na] e] l IH]; [reflexivity|]. cbn [map import_names]. destruct (r (mo, na)) as [mo' na'] eqn:E. destruct e; cbn [import_names map]; rewrite ?IH, ?E; reflexivity.
Qed.
Section Renamed.
Context (p p' : program).
Hypothesis Hn : nlen (p_imports p') = nlen (p_imports p).
Lemma op_renamed func offset op g : validate_op p' func offset op g = validate_op p func offset op g.
Proof. destruct op; try reflexivity. unfold validate_op, is_imported. now rewrite Hn. Qed.
Lemma body_renamed func body : forall offset g, validate_body p' func offset body g = validate_body p func offset body g.
Proof. induction body as [|op r IH]; intros offset g; [reflexivity|]. cbn [validate_body]. rewrite op_renamed. destruct (validate_op p func offset op g); cbn [bind]; auto. Qed.
Lemma functions_renamed fs : forall g, validate_functions p' fs g = validate_functions p fs g.
Proof.
  induction fs as [|[i body] fs IH]; intros g; [reflexivity|]. cbn [validate_functions]. rewrite body_renamed.
  match goal with |- context [validate_body ?a ?b ?c ?d ?e] => destruct (validate_body a b c d e) end; cbn [bind]; auto.
Qed.
End Renamed.
Lemma validate_renamed r parse message :
  validate_deploy (fun code => option_map (renamed r) (parse code)) message = validate_deploy parse message.
Proof.
  unfold validate_deploy. destruct (dec_template None message) as [[l rest]|e|]; try reflexivity. destruct (template_code l) as [code|]; [|reflexivity].
  destruct (parse code) as [m|]; cbn [option_map]; [|reflexivity]. unfold program_new. cbn [renamed m_code].
  destruct (m_code m) as [bodies|]; [|reflexivity].
  assert (L : forall x, nlen (import_names (map (fun '(module, name, e) => (r (module, name), e)) x)) = nlen (import_names x)).
  { intros x. rewrite import_names_renamed. unfold nlen. now rewrite map_length. }
  assert (V : module_validate_exports (renamed r m) = module_validate_exports m).
  { unfold module_validate_exports. cbn [renamed m_exports m_imports m_functions m_types].
    assert (X : nlen (import_names (entries (option_map (map (fun '(module, name, e) => (r (module, name), e))) (m_imports m)))) = nlen (import_names (entries (m_imports m)))).
    { destruct (m_imports m) as [x|]; [apply L|reflexivity]. }
    now rewrite X. }
  rewrite V. unfold read_imports. cbn [renamed m_imports m_exports].
  assert (G : forall im im', nlen im' = nlen im ->
     match (let* _ := validate_no_floats (mkProgram im' (read_exports (entries (m_exports m)) []) (number_functions (nlen im') bodies)) in
            let* _ := module_validate_exports m in
            (if u16_max <? nlen (p_functions (mkProgram im' (read_exports (entries (m_exports m)) []) (number_functions (nlen im') bodies)))
             then Err FunctionIndexTooLarge else Ok (mkProgram im' (read_exports (entries (m_exports m)) []) (number_functions (nlen im') bodies)))) with
     | Ok p => match validate_wasm p false with Ok _ => Ok tt | Err e => Err (VFixedGas e) | Panic => Panic end
     | Err e => Err (VProgram e) | Panic => Panic end
     = match (let* _ := validate_no_floats (mkProgram im (read_exports (entries (m_exports m)) []) (number_functions (nlen im) bodies)) in
            let* _ := module_validate_exports m in
            (if u16_max <? nlen (p_functions (mkProgram im (read_exports (entries (m_exports m)) []) (number_functions (nlen im) bodies)))
             then Err FunctionIndexTooLarge else Ok (mkProgram im (read_exports (entries (m_exports m)) []) (number_functions (nlen im) bodies)))) with
     | Ok p => match validate_wasm p false with Ok _ => Ok tt | Err e => Err (VFixedGas e) | Panic => Panic end
     | Err e => Err (VProgram e) | Panic => Panic end).
  { intros im im' El. rewrite El. unfold validate_no_floats. cbn [p_functions].
    destruct (existsb _ (number_functions (nlen im) bodies)); cbn [bind]; [reflexivity|]. destruct (module_validate_exports m); cbn [bind]; try reflexivity.
    destruct (u16_max <? nlen (number_functions (nlen im) bodies)); [reflexivity|]. unfold validate_wasm. cbn [p_functions].
    rewrite (functions_renamed (mkProgram im (read_exports (entries (m_exports m)) []) (number_functions (nlen im) bodies))) by exact El. reflexivity. }
  destruct (m_imports m) as [x|]; cbn [option_map].
  - rewrite L. destruct (nlen (import_names x) <=? u16_max); cbn [bind]; [|reflexivity]. apply G, L.
  - cbn [bind]. now apply G.
Qed.

(* ------------------------------------------------------------------------- *)
(** * A contract that does not link does not run *)

Lemma unlinked_call e en cl g code msg : has_code e g (cl_target cl) code -> en_instantiate en code = WTrap msg ->
  forall r g', exec_call e en cl g = (Some r, g') -> cr_success r = false.
Proof.
  intros Hc Ei r g' Ex. destruct (cr_success r) eqn:Hs; [exfalso|reflexivity].
  destruct (success_steps e en cl g r g' code Hc Ex Hs) as (a & mem & i & f & g1 & mem2 & logs & f2 & g2 & E1 & _).
  rewrite Ei in E1. discriminate E1.
Qed.
Lemma unlinked_spawn e en ev m c g sp l cs msg : iterates e -> collision_free e -> hash_wf e -> live e g -> bytes_ok m ->
  decoded dec_spawn m = Some sp -> fst (template_sections e (sp_template sp) g) = Ok l -> code_of l = Some cs ->
  en_instantiate en (cs_code cs) = WTrap msg ->
  forall rc c' g', spawn e en ev m c g = (Some rc, c', g') -> sr_success rc = false.
Proof.
  intros HI HC HH HL Hm Ed El Ec Ei rc c' g' E. pose proof (live_typed e g HI HC HL) as HT. unfold spawn in E. rewrite Ed in E.
  assert (Hsp : spawn_wf sp) by (eapply decoded_canon; eauto using spawn_canon). destruct Hsp as [S1 S2 S3 S4 S5].
  pose proof (reads_sections e (sp_template sp) g) as R1.
  destruct (template_sections e (sp_template sp) g) as [o g0] eqn:Et; cbn [fst snd] in *; subst o g0.
  pose proof (reads_exec_prefix sp l g) as R2.
  destruct (ensure_ctor _ _ _ g) as [[[]|[? ?]|] g0]; cbn [snd] in R2; subst; try discriminate.
  2:{ injection E as <- _ _. reflexivity. }
  destruct (check_gas_for_func _ _ _ _ _ _) as [[[n|]|] c1]; try discriminate.
  2:{ injection E as <- _ _. reflexivity. }
  set (new := account_addr e (sp_template sp)) in *. assert (Hnew : array_wf 20 new) by now apply addr_wf.
  assert (EF : forall a g1, account_create e new (sp_name sp) (sp_template sp) 0 0 g = (Ok a, g1) ->
     only e (fun t => t = TImm new \/ t = TMut new) g g1
     /\ fields_of e new g1 = (Ok (sp_name sp), Ok (sp_template sp), Ok 0, Ok 0)).
  { intros a g1. unfold account_create, gbind. pose proof (reads_layout e (sp_template sp) g) as RL.
    destruct (template_layout e (sp_template sp) g) as [[lay|?|] g0]; cbn [snd] in *; subst; try discriminate.
    destruct (write_account_effect e new (sp_name sp) (sp_template sp) 0 0 g) as (g2 & -> & _ & O & F); auto; try reflexivity.
    cbn [gret]. intros [= _ <-]. split; auto. apply F, HL. }
  destruct (account_create e new _ _ 0 0 g) as [[a|?|] g1]; try discriminate. destruct (EF a g1 eq_refl) as [O F].
  unfold call_ctor in E. destruct (exec_call e en _ g1) as [[rc1|] g2] eqn:Ex; [|discriminate].
  assert (Hc : has_code e g1 new (cs_code cs)).
  { exists (sp_template sp), l, cs. unfold fields_of in F. injection F as _ F _ _. split; [exact F|]. split; [|auto].
    assert (X : fst (template_sections e (sp_template sp) g1) = fst (template_sections e (sp_template sp) g)).
    { eapply only_sections; [exact O| | |]; [assumption| |]; intros [Q|Q]; discriminate. }
    rewrite X, Et. reflexivity. }
  pose proof (unlinked_call e en (mkCall (sp_ctor sp) (sp_calldata sp) new (sp_template sp) true FullAccess) g1 (cs_code cs) msg Hc Ei rc1 g2 Ex) as Hf.
  unfold into_spawn_receipt in E. cbn [cr_success cr_error] in E. rewrite Hf in E. destruct (cr_error rc1); cbn [obind] in E; injection E as <- _ _ || discriminate E. reflexivity.
Qed.

(* ------------------------------------------------------------------------- *)
(** * The host interface *)

Lemma registered_provided name ps rs : In (name, (ps, rs)) registered -> exists f, name = txt f /\ provides f ps rs.
Proof.
  intros H. unfold registered in H. repeat (destruct H as [H|H]; [injection H as <- <- <-|]); [..|destruct H].
  - exists "svm_static_alloc"%string. split; [reflexivity|apply hi_alloc].
  - exists "svm_calldata_offset"%string. split; [reflexivity|apply hi_calldata_offset].
  - exists "svm_calldata_len"%string. split; [reflexivity|apply hi_calldata_len].
  - exists "svm_set_returndata"%string. split; [reflexivity|apply hi_set_returndata].
  - exists "svm_get32"%string. split; [reflexivity|apply (hi_get "32"%string); auto].
  - exists "svm_set32"%string. split; [reflexivity|apply (hi_set "32"%string); auto].
  - exists "svm_get64"%string. split; [reflexivity|apply (hi_get "64"%string); auto].
  - exists "svm_set64"%string. split; [reflexivity|apply (hi_set "64"%string); auto].
  - exists "svm_load160"%string. split; [reflexivity|apply (hi_blob "load"%string); auto].
  - exists "svm_store160"%string. split; [reflexivity|apply (hi_blob "store"%string); auto].
  - exists "svm_log"%string. split; [reflexivity|apply hi_log].
  - exists "svm_transfer"%string. split; [reflexivity|apply hi_transfer].
Qed.
Lemma provided_resolves f ps rs : provides f ps rs -> resolves (txt "svm") (txt f) (ps, rs) = true.
Proof.
  intros [| | | |w t [[-> ->]|[-> ->]]|w t [[-> ->]|[-> ->]]|w [->| ->]| |]; vm_compute; reflexivity.
Qed.
