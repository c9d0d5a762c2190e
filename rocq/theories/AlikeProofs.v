(** What the API does depends on what can be read now, not on how it got there. *)
From Coq Require Import List NArith ZArith Bool Lia.
From Coq Require Import ZifyBool ZifyNat ZifyN.
From Verif Require Import Base CodecModel CodecSpec CodecProofs ReceiptModel ReceiptProofs LayoutModel SectionModel.
From Verif Require Import SectionSpec SectionProofs SectionCanon StorageModel StorageSpec StorageProofs GlobalModel GlobalSpec GlobalProofs.
From Verif Require Import RuntimeModel RuntimeSpec RuntimeProofs OutcomeProofs AlikeSpec.
Import ListNotations.
Open Scope N_scope.

(** The answer and the readable contents afterwards are the same in states that read the same. *)
Definition resp {E A} (e : env) (m : sm E A) : Prop := forall g1 g2, same_now e g1 g2 ->
  fst (m g1) = fst (m g2) /\ same_now e (snd (m g1)) (snd (m g2)).

Lemma resp_sret {E A} e (a : A) : resp e (@sret E A a).
Proof. intros g1 g2 H. now split. Qed.
Lemma resp_spanic {E A} e : resp e (@spanic E A).
Proof. intros g1 g2 H. now split. Qed.
Lemma resp_serr {E A} e (x : E) : resp e (@serr E A x).
Proof. intros g1 g2 H. now split. Qed.
Lemma resp_sbind {E A B} e (m : sm E A) (k : A -> sm E B) : resp e m -> (forall a, resp e (k a)) -> resp e (sbind m k).
Proof.
  intros Hm Hk g1 g2 H. unfold sbind. destruct (Hm g1 g2 H) as [X Y].
  destruct (m g1) as [[a|x|] h1], (m g2) as [[a'|x'|] h2]; cbn [fst snd] in *; try discriminate X;
    first [now split|injection X as <-; now split|injection X as <-; now apply Hk].
Qed.
Lemma resp_ssome {E A} e (o : option A) : resp e (@ssome E A o).
Proof. destruct o; [apply resp_sret|apply resp_spanic]. Qed.
Lemma resp_sassert {E} e b : resp e (@sassert E b).
Proof. destruct b; [apply resp_sret|apply resp_spanic]. Qed.
Lemma resp_sunwrap {E A} e (m : gm A) : @resp gs_error A e m -> resp e (@sunwrap E A m).
Proof.
  intros Hm g1 g2 H. unfold sunwrap. destruct (Hm g1 g2 H) as [X Y].
  destruct (m g1) as [[a|x|] h1], (m g2) as [[a'|x'|] h2]; cbn [fst snd] in *; try discriminate X; try (injection X as <-); now split.
Qed.
Lemma resp_gunwrap {A} e (m : gm A) : @resp gs_error A e m -> @resp gs_error A e (gunwrap m).
Proof.
  intros Hm g1 g2 H. unfold gunwrap. destruct (Hm g1 g2 H) as [X Y].
  destruct (m g1) as [[a|x|] h1], (m g2) as [[a'|x'|] h2]; cbn [fst snd] in *; try discriminate X; try (injection X as <-); now split.
Qed.
Lemma resp_gret {A} e (a : A) : @resp gs_error A e (gret a).
Proof. exact (resp_sret e a). Qed.
Lemma resp_gpanic {A} e : @resp gs_error A e gpanic.
Proof. exact (resp_spanic e). Qed.
Lemma resp_gsome {A} e (o : option A) : @resp gs_error A e (gsome o).
Proof. destruct o; [apply resp_gret|apply resp_gpanic]. Qed.
Lemma resp_gbind {A B} e (m : gm A) (k : A -> gm B) : @resp gs_error A e m -> (forall a, @resp gs_error B e (k a)) ->
  @resp gs_error B e (gbind m k).
Proof. exact (resp_sbind e m k). Qed.

Lemma resp_get e k : @resp gs_error _ e (gs_get e k None).
Proof. intros g1 g2 H. rewrite !gs_get_now. cbn [fst snd]. split; auto. destruct H as (_ & _ & H). now rewrite H. Qed.
Lemma resp_upsert e k v : @resp gs_error _ e (gs_upsert e k v).
Proof.
  intros g1 g2 (H1 & H2 & H3). split; [reflexivity|]. split; [exact H1|]. split; [exact H2|].
  intros k'. unfold cur, get. cbn [gs_upsert snd gs_storage]. unfold upsert. rewrite !get_upsert.
  destruct (bytes_eqb (env_hash e k') (env_hash e k)); [reflexivity|]. exact (H3 k').
Qed.
Lemma resp_read {A} e (d : decoder A) k : @resp gs_error A e (read_and_decode e d k).
Proof.
  intros g1 g2 H. split; [symmetry; now apply decode_same_now|].
  assert (X : forall g, gs_layer_param g = None -> snd (read_and_decode e d k g) = g).
  { intros g G. unfold read_and_decode, gbind. rewrite G. cbn [option_map]. rewrite gs_get_now.
    destruct (cur e g k) as [v|]; [|reflexivity]. destruct (d v) as [[? ?]| |]; reflexivity. }
  rewrite !X; auto; apply H.
Qed.

Create HintDb alike.
#[export] Hint Resolve resp_sret resp_spanic resp_serr resp_ssome resp_sassert resp_gret resp_gpanic resp_gsome
  resp_get resp_upsert resp_read : alike.
Ltac alike := repeat (intros;
  first [ solve [eauto with alike]
        | apply resp_gbind | apply resp_sbind | apply resp_sunwrap | apply resp_gunwrap
        | match goal with |- resp _ (match ?x with _ => _ end) => destruct x end ]).

Lemma resp_write {A} e (enc : encoder A) x k : @resp gs_error _ e (encode_and_write e enc x k).
Proof. unfold encode_and_write. alike. Qed.
#[export] Hint Resolve resp_write : alike.
Lemma resp_replace {A} e (d : decoder A) (enc : encoder A) k f : @resp gs_error _ e (replace e d enc k f).
Proof. unfold replace. alike. Qed.
Lemma resp_sections e a : @resp gs_error _ e (template_sections e a).
Proof. unfold template_sections. alike. Qed.
#[export] Hint Resolve resp_replace resp_sections : alike.
Lemma resp_tlayout e a : @resp gs_error _ e (template_layout e a).
Proof. unfold template_layout. alike. Qed.
#[export] Hint Resolve resp_tlayout : alike.
Lemma resp_tcreate e a x y : @resp gs_error _ e (template_create e a x y).
Proof. unfold template_create. alike. Qed.
Lemma resp_create e a n t b c : @resp gs_error _ e (account_create e a n t b c).
Proof. unfold account_create, write_account. alike. Qed.
Lemma resp_load e a : @resp gs_error _ e (account_load e a).
Proof. unfold account_load. alike. Qed.
Lemma resp_template e a : @resp gs_error _ e (account_template e a).
Proof. unfold account_template. alike. Qed.
Lemma resp_balance e a : @resp gs_error _ e (account_balance e a).
Proof. unfold account_balance. alike. Qed.
Lemma resp_counter e a : @resp gs_error _ e (account_counter e a).
Proof. unfold account_counter. alike. Qed.
Lemma resp_set_balance e a b : @resp gs_error _ e (set_balance e a b).
Proof. unfold set_balance. alike. Qed.
Lemma resp_rsegment e a n : @resp gs_error _ e (read_segment e a n).
Proof. unfold read_segment. alike. Qed.
#[export] Hint Resolve resp_tcreate resp_create resp_load resp_template resp_balance resp_counter resp_set_balance resp_rsegment : alike.
Lemma resp_rsegments e a l : @resp gs_error _ e (read_segments e a l).
Proof. induction l; cbn [read_segments]; alike. Qed.
Lemma resp_wsegments e a l : forall v, @resp gs_error _ e (write_segments e a l v).
Proof. induction l; intros v; cbn [write_segments]; alike. Qed.
#[export] Hint Resolve resp_rsegments resp_wsegments : alike.
Lemma resp_get_var e a n b : @resp gs_error _ e (get_var e a n b).
Proof. unfold get_var. alike. Qed.
Lemma resp_set_var e a n b : @resp gs_error _ e (set_var_bytes e a n b).
Proof. unfold set_var_bytes. alike. Qed.
#[export] Hint Resolve resp_get_var resp_set_var : alike.
Lemma resp_i64 e a n : @resp gs_error _ e (get_var_i64 e a n).
Proof. unfold get_var_i64, get_var_array. alike. Qed.
Lemma resp_array e a k n : @resp gs_error _ e (get_var_array e a k n).
Proof. unfold get_var_array. alike. Qed.
#[export] Hint Resolve resp_i64 resp_array : alike.
Lemma resp_between e s d n : resp e (transfer_between e s d n).
Proof. unfold transfer_between. alike. Qed.
#[export] Hint Resolve resp_between : alike.
Lemma resp_host e f mem c : resp e (host_call e f mem c).
Proof. destruct c; cbn [host_call]; unfold set_var_i32, set_var_i64; alike. Qed.

Lemma resp_wasm {R} e (t : wasm R) : forall f, resp e (run_wasm e t f).
Proof.
  induction t as [mem x|msg|mem c k IH]; intros f g1 g2 H; cbn [run_wasm]; try now split.
  destruct (resp_host e f mem c g1 g2 H) as [X Y].
  destruct (host_call e f mem c g1) as [[[[v m'] f']|x|] h1], (host_call e f mem c g2) as [[[[v2 m2] f2]|x'|] h2];
    cbn [fst snd] in *; try discriminate X; try (injection X; intros; subst); try (now split). now apply IH.
Qed.
Lemma resp_wasmer e en i f name ps mem : resp e (wasmer_call e en i f name ps mem).
Proof.
  intros g1 g2 H. unfold wasmer_call. destruct (resp_wasm e (en_call en i name ps mem) f g1 g2 H) as [X Y].
  destruct (run_wasm e (en_call en i name ps mem) f g1) as [[[[m' [rs i']] f']|[x xf]|] h1],
    (run_wasm e (en_call en i name ps mem) f g2) as [[[[m2 [rs2 i2]] f2]|[x' xf']|] h2]; cbn [fst snd] in *; try discriminate X;
    try (injection X; intros; subst); now split.
Qed.
#[export] Hint Resolve resp_wasmer : alike.
Lemma resp_alloc e en i f name cd mem : resp e (call_with_alloc e en i f name cd mem).
Proof. unfold call_with_alloc. alike. Qed.
Lemma resp_usage e cl l f : resp e (validate_func_usage cl l f).
Proof. unfold validate_func_usage, ensure_ctor. alike. Qed.
Lemma resp_instantiate e en l f : resp e (instantiate e en l f).
Proof.
  unfold instantiate. apply resp_sbind; [alike|]. intros c. destruct (en_compile en (cs_code c)); [alike|].
  intros g1 g2 H. destruct (resp_wasm e (en_instantiate en (cs_code c)) f g1 g2 H) as [X Y].
  destruct (run_wasm e (en_instantiate en (cs_code c)) f g1) as [[?|[x xf]|] h1],
    (run_wasm e (en_instantiate en (cs_code c)) f g2) as [[?|[x' xf']|] h2]; cbn [fst snd] in *; try discriminate X;
    try (injection X; intros; subst); now split.
Qed.
#[export] Hint Resolve resp_alloc resp_usage resp_instantiate : alike.
Lemma resp_run e en cl l f : resp e (run e en cl l f).
Proof. unfold run. alike. Qed.
#[export] Hint Resolve resp_run : alike.
Lemma resp_increase e a n : resp e (increase_balance e a n).
Proof. unfold increase_balance. alike. Qed.
Lemma resp_get_account e a : @resp gs_error _ e (get_account e a).
Proof.
  intros g1 g2 H. unfold get_account.
  set (m := let! _ := account_load e a in let! b := account_balance e a in let! c := account_counter e a in
            let! t := account_template e a in gret (b, c, t)).
  assert (M : @resp gs_error _ e m) by (unfold m; alike). destruct (M g1 g2 H) as [X Y].
  destruct (m g1) as [[?|?|] h1], (m g2) as [[?|?|] h2]; cbn [fst snd] in *; try discriminate X;
    try (injection X; intros; subst); now split.
Qed.
#[export] Hint Resolve resp_get_account : alike.
Lemma resp_transfer e s d n : resp e (transfer e s d n).
Proof. unfold transfer. alike. Qed.
Lemma resp_build e tx m name input : @resp gs_error _ e (build_call e tx m name input).
Proof. unfold build_call. alike. Qed.

Lemma same_now_sym e g1 g2 : same_now e g1 g2 -> same_now e g2 g1.
Proof. intros (A & B & C). repeat split; auto. Qed.

Lemma deploy_alike e ev m g1 g2 : same_now e g1 g2 ->
  fst (deploy e ev m g1) = fst (deploy e ev m g2) /\ same_now e (snd (deploy e ev m g1)) (snd (deploy e ev m g2)).
Proof.
  intros H. unfold deploy. destruct (decoded _ m) as [l|]; [|now split].
  destruct (gas_lt _ _); [now split|]. destruct (code_of l) as [c|]; [|now split].
  destruct (resp_tcreate e (template_addr e (cs_code c)) l l g1 g2 H) as [X Y].
  destruct (template_create e _ l l g1) as [[?|?|] h1], (template_create e _ l l g2) as [[?|?|] h2]; cbn [fst snd] in *;
    try discriminate X; now split.
Qed.

(** The end of a call always commits: only the fingerprint depends on the past. *)
Definition without_state (r : outcome failure call_receipt) : outcome failure call_receipt :=
  match r with Ok r => Ok (but_state r) | x => x end.
Lemma outcome_answer e mem logs f g : iterates e -> live e g ->
  without_state (fst (outcome_to_receipt e mem logs f g)) =
    match take_returndata f mem with
    | Some d => if can_write f then Ok (mkCallReceipt 0 true None (Some []) (Some d) None (fe_touched f) logs) else Panic
    | None => Panic
    end.
Proof.
  intros HI HL. unfold outcome_to_receipt, commit_changes, sbind, ssome, sassert, sunwrap.
  destruct (take_returndata f mem) as [d|]; [|reflexivity]. unfold sret at 1.
    destruct (can_write f); [|reflexivity]. unfold sret at 1.
    destruct (checkpoint_now e g HI HL) as (HL1 & _ & E1 & U). destruct (gs_checkpoint e g) as [r0 h] eqn:Eh. cbn [fst snd] in *. subst r0.
    pose proof (live_next e h HI HL1) as Hn.
    destruct (commit_spec e (gs_storage h) HI (gs_reachable_storage e h (proj1 HL1)) U) as (l & prev & fp & s' & Lp & C & _).
    assert (Hl : l = st_next_id (gs_storage h)).
    { unfold last_layer in Lp. destruct (_ <? _)%Z; [|discriminate]. destruct (layer_fingerprint _ _ _); try discriminate. injection Lp as Lp _. lia. }
    unfold gs_commit, gbind, gs_commit_raw. rewrite C. cbn [lift]. unfold layer_of.
    destruct (l <? 0)%Z eqn:E; [lia|]. reflexivity.
Qed.
Lemma outcome_alike e mem logs f g1 g2 : iterates e -> live e g1 -> live e g2 -> same_now e g1 g2 ->
  without_state (fst (outcome_to_receipt e mem logs f g1)) = without_state (fst (outcome_to_receipt e mem logs f g2))
  /\ same_now e (snd (outcome_to_receipt e mem logs f g1)) (snd (outcome_to_receipt e mem logs f g2)).
Proof.
  intros HI L1 L2 H.
  split; [now rewrite !outcome_answer|].
  destruct (outcome_to_receipt e mem logs f g1) as [r1 h1] eqn:E1. apply outcome_cases in E1; auto. destruct E1 as (_ & S1 & _).
  destruct (outcome_to_receipt e mem logs f g2) as [r2 h2] eqn:E2. apply outcome_cases in E2; auto. destruct E2 as (_ & S2 & _).
  cbn [snd]. eapply same_now_trans; [|exact S2]. eapply same_now_trans; [|exact H]. now apply same_now_sym.
Qed.

Lemma reads_tmpl e a : reads (account_template e a).
Proof. unfold account_template. apply reads_bind; [apply reads_decode|intros; apply reads_ret]. Qed.

Section Exec.
Variables (e : env) (en : engine).
Hypothesis HI : iterates e.
Hypothesis HC : collision_free e.
Hypothesis HE : engine_wf en.

Lemma exec_alike cl g1 g2 : live e g1 -> live e g2 -> array_wf 20 (cl_target cl) -> bytes_ok (cl_input cl) -> same_now e g1 g2 ->
  without_state (fst (exec e en cl g1)) = without_state (fst (exec e en cl g2))
  /\ same_now e (snd (exec e en cl g1)) (snd (exec e en cl g2)).
Proof.
  intros L1 L2 Ht Hin H. unfold exec, load_template.
  assert (G : forall A (m : gm A) (k : A -> sm failure call_receipt) (h1 h2 : gstate), @resp gs_error A e m -> (forall g, snd (m g) = g) -> same_now e h1 h2 ->
    (forall a, m h1 = (Ok a, h1) -> m h2 = (Ok a, h2) ->
       without_state (fst (k a h1)) = without_state (fst (k a h2)) /\ same_now e (snd (k a h1)) (snd (k a h2))) ->
    without_state (fst (sbind (sunwrap m) k h1)) = without_state (fst (sbind (sunwrap m) k h2))
    /\ same_now e (snd (sbind (sunwrap m) k h1)) (snd (sbind (sunwrap m) k h2))).
  { intros A m k h1 h2 Hm Hr S K. unfold sbind, sunwrap. destruct (Hm h1 h2 S) as [X _]. pose proof (Hr h1) as R1. pose proof (Hr h2) as R2.
    destruct (m h1) as [[a|x|] h1'], (m h2) as [[a'|x'|] h2']; cbn [fst snd] in *; subst; try discriminate X; try now split.
    injection X as <-. now apply K. }
  apply G; [apply resp_load|apply reads_load|exact H|]. intros a0 _ _.
  apply G; [apply resp_template|apply reads_tmpl|exact H|]. intros ta _ _.
  apply G; [apply resp_sections|apply reads_sections|exact H|]. intros l _ _.
  apply G; [apply resp_load|apply reads_load|exact H|]. intros a E1 _.
  assert (Ha : ac_addr a = cl_target cl) by (eapply load_addr; now rewrite E1).
  unfold sbind. destruct (resp_run e en cl l (env_new a (cl_template cl) (cl_mode cl)) g1 g2 H) as [X Y].
  destruct (run e en cl l _ g1) as [r1 h1] eqn:R1. destruct (run e en cl l _ g2) as [r2 h2] eqn:R2. cbn [fst snd] in *. subst r2.
  apply run_cases in R1; auto; [|cbn; now rewrite Ha]. apply run_cases in R2; auto; [|cbn; now rewrite Ha].
  destruct r1 as [[[mem logs] f]|x|]; try now split. apply outcome_alike; auto; [apply R1|apply R2].
Qed.

Lemma exec_call_alike cl g1 g2 : live e g1 -> live e g2 -> array_wf 20 (cl_target cl) -> bytes_ok (cl_input cl) -> same_now e g1 g2 ->
  option_map but_state (fst (exec_call e en cl g1)) = option_map but_state (fst (exec_call e en cl g2))
  /\ same_now e (snd (exec_call e en cl g1)) (snd (exec_call e en cl g2)).
Proof.
  intros L1 L2 Ht Hin H. destruct (exec_alike cl g1 g2 L1 L2 Ht Hin H) as [X Y]. unfold exec_call.
  destruct (exec e en cl g1) as [[r1|[x1 y1]|] h1], (exec e en cl g2) as [[r2|[x2 y2]|] h2]; cbn [fst snd without_state option_map] in *;
    try discriminate X; split; auto; injection X; intros; subst; try reflexivity. unfold but_state. congruence.
Qed.

Lemma transact_alike tx m name input g1 g2 : live e g1 -> live e g2 -> array_wf 20 (tx_target tx) -> bytes_ok input -> same_now e g1 g2 ->
  option_map but_state (fst (transact e en tx m name input g1)) = option_map but_state (fst (transact e en tx m name input g2))
  /\ same_now e (snd (transact e en tx m name input g1)) (snd (transact e en tx m name input g2)).
Proof.
  intros L1 L2 Ht Hin H. unfold transact. destruct (resp_build e tx m name input g1 g2 H) as [X _].
  destruct (build_call_reads e tx m name input g1) as [(cl & E1 & _ & _ & Et & Ei & _)|E1];
    destruct (build_call_reads e tx m name input g2) as [(cl' & E2 & _)|E2]; rewrite E1, E2 in *; cbn [fst] in X; try discriminate X; [|now split].
  injection X as <-. apply exec_call_alike; auto; congruence.
Qed.

Lemma call_alike m g1 g2 : live e g1 -> live e g2 -> bytes_ok m -> same_now e g1 g2 ->
  option_map but_state (fst (rt_call e en m g1)) = option_map but_state (fst (rt_call e en m g2))
  /\ same_now e (snd (rt_call e en m g1)) (snd (rt_call e en m g2)).
Proof.
  intros L1 L2 Hm H. unfold rt_call. destruct (decoded dec_transaction m) as [tx|] eqn:Ed; [|now split].
  assert (Hw : transaction_wf tx) by (eapply decoded_canon; eauto using transaction_canon).
  destruct Hw as [S1 S2 S3 S4 S5]. apply transact_alike; auto. apply S5.
Qed.

Lemma verify_alike m g1 g2 : live e g1 -> live e g2 -> bytes_ok m -> same_now e g1 g2 ->
  option_map but_state (fst (verify e en m g1)) = option_map but_state (fst (verify e en m g2)).
Proof.
  intros L1 L2 Hm H. unfold verify. destruct (decoded dec_transaction m) as [tx|] eqn:Ed; [|reflexivity].
  assert (Hw : transaction_wf tx) by (eapply decoded_canon; eauto using transaction_canon).
  destruct Hw as [S1 S2 S3 S4 S5]. apply transact_alike; auto. apply S4.
Qed.

Lemma spawn_alike ev m c g1 g2 : hash_wf e -> live e g1 -> live e g2 -> bytes_ok m -> same_now e g1 g2 ->
  let '(r1, c1, h1) := spawn e en ev m c g1 in
  let '(r2, c2, h2) := spawn e en ev m c g2 in
  option_map but_init_state r1 = option_map but_init_state r2 /\ c1 = c2 /\ same_now e h1 h2.
Proof.
  intros HH L1 L2 Hm H. unfold spawn. destruct (decoded dec_spawn m) as [sp|] eqn:Ed; [|now repeat split; try apply H].
  assert (Hw : spawn_wf sp) by (eapply decoded_canon; eauto using spawn_canon).
  destruct (resp_sections e (sp_template sp) g1 g2 H) as [X _].
  pose proof (reads_sections e (sp_template sp) g1) as R1. pose proof (reads_sections e (sp_template sp) g2) as R2.
  destruct (template_sections e (sp_template sp) g1) as [[l|?|] h1], (template_sections e (sp_template sp) g2) as [[l'|?|] h2];
    cbn [fst snd] in *; subst h1 h2; try discriminate X; auto. injection X as <-.
  unfold ensure_ctor, sbind, ssome. destruct (is_ctor l (sp_ctor sp)) as [[]|]; cbn [sret serr spanic]; unfold sret, serr, spanic; auto.
  destruct (check_gas_for_func _ _ _ _ _ _) as [[[n|]|] c']; auto.
  assert (Ha : array_wf 20 (account_addr e (sp_template sp))) by (now apply addr_wf).
  destruct (resp_create e (account_addr e (sp_template sp)) (sp_name sp) (sp_template sp) 0 0 g1 g2 H) as [X Y].
  destruct Hw as [W1 W2 W3 W4 W5].
  pose proof (create_live e (account_addr e (sp_template sp)) (sp_name sp) (sp_template sp) 0 0 g1 HI HC L1 Ha W3 W2 eq_refl eq_refl) as K1.
  pose proof (create_live e (account_addr e (sp_template sp)) (sp_name sp) (sp_template sp) 0 0 g2 HI HC L2 Ha W3 W2 eq_refl eq_refl) as K2.
  destruct (account_create _ _ _ _ _ _ g1) as [[a1|?|] h1], (account_create _ _ _ _ _ _ g2) as [[a2|?|] h2];
    cbn [fst snd] in *; try discriminate X; auto. 
  unfold call_ctor.
  set (cl := mkCall _ _ _ _ _ _).
  destruct (exec_call_alike cl h1 h2 K1 K2 Ha (proj2 W5) Y) as [P Q].
  destruct (exec_call e en cl h1) as [[r1|] k1], (exec_call e en cl h2) as [[r2|] k2]; cbn [fst snd option_map] in *; try discriminate P; auto.
  split; [|now split]. unfold but_state in P. injection P as P1 P2 P3 P4 P5 P6 P7 P8.
  unfold into_spawn_receipt. cbn [cr_success cr_error cr_new_state cr_returndata cr_gas_used cr_touched cr_logs].
  rewrite P2, P3, P5, P6, P7, P8. destruct (cr_success r2); [|destruct (cr_error r2); reflexivity].
  cbn [option_map]. unfold but_init_state. cbn. now rewrite P4.
Qed.


Lemma commit_same g : live e g -> same_now e g (snd (rt_commit e g)).
Proof.
  intros HL. unfold rt_commit. destruct (has_uncommitted_changes (gs_storage g)) eqn:U.
  - unfold gs_commit, gbind, gs_commit_raw, commit. unfold has_uncommitted_changes in U.
    destruct (st_dirty (gs_storage g)); [discriminate U|]. cbn [lift snd]. destruct g. now apply same_now_refl.
  - destruct (commit_now e g HI HL U) as (_ & S & _). destruct (gs_commit e g) as [[?|?|] g']; exact S.
Qed.

Lemma rop_alike o c g1 g2 : hash_wf e -> live e g1 -> live e g2 -> rop_wf o -> onward o -> same_now e g1 g2 ->
  snd (run_rop e en o (g1, c)) = snd (run_rop e en o (g2, c))
  /\ same_now e (fst (run_rop e en o (g1, c))) (fst (run_rop e en o (g2, c))).
Proof.
  intros HH L1 L2 W NR H. destruct o; cbn [run_rop fst snd rop_wf onward] in *; try (split; [reflexivity|]).
  - now apply deploy_alike.
  - pose proof (spawn_alike ev message c g1 g2 HH L1 L2 W H) as S.
    destruct (spawn e en ev message c g1) as [[r1 c1] h1], (spawn e en ev message c g2) as [[r2 c2] h2]. cbn [fst snd]. tauto.
  - destruct (verify_pure e en message g1) as [-> _]. now destruct (verify_pure e en message g2) as [-> _].
  - now apply call_alike.
  - now apply resp_transfer.
  - now apply resp_increase.
  - now apply resp_create.
  - eapply same_now_trans; [|now apply commit_same]. eapply same_now_trans; [|exact H]. apply same_now_sym. now apply commit_same.
  - contradiction.
Qed.
End Exec.

Lemma same_contents_now e g1 g2 : live e g1 -> live e g2 -> same_contents e g1 g2 <-> same_now e g1 g2.
Proof.
  intros [_ L1] [_ L2]. unfold same_contents. split.
  - intros H. split; auto. split; auto. intros k. specialize (H k). rewrite !gs_get_now in H. cbn [fst] in H. congruence.
  - intros (_ & _ & H) k. rewrite !gs_get_now. cbn [fst]. now rewrite H.
Qed.
