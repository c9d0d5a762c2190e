(** Properties C63, C64, C66 and C73, exactly. *)
From Coq Require Import String.
From Coq Require Import List NArith ZArith Bool Lia ZifyBool ZifyNat ZifyN.
From Verif Require Import Base Text CodecModel CodecSpec CodecProofs ReceiptModel LayoutModel LayoutSpec SectionModel SectionSpec SectionProofs SectionCanon AbortSpec AbortProps
  StorageModel StorageSpec StorageProofs.
From Verif Require Import GlobalModel GlobalSpec GlobalProofs RuntimeModel RuntimeSpec RuntimeProofs RuntimeProps OutcomeSpec OutcomeProofs.
From Verif Require SectionProps GraphModel GraphSpec ProgramModel ProgramSpec ProgramProofs ProgramProps AcceptSpec AcceptProofs AcceptProps.
From Verif Require Import NodeExactSpec.
Import ListNotations.
Open Scope list_scope.
Open Scope N_scope.

(** ** C63 A contract can write a variable of [s] bytes as a number of at least as many bytes and
    reads the number modulo the variable's size, whichever the two widths; it aborts for a wider
    variable. *)
Theorem C63_any_size :
  forall e en g c f mem id s n,
  iterates e -> collision_free e -> hash_wf e -> engine_wf en -> rt_reachable e en g c ->
  array_wf 20 (ac_addr (fe_account f)) -> fe_mode f = FullAccess -> declares (fe_account f) id s -> 0 < s ->
  (if s <=? 4 then exists g', host_call e f mem (HSet32 id n) g = (Ok (0, mem, f), g')
       /\ host_call e f mem (HGet32 id) g' = (Ok (n mod 256 ^ s, mem, f), g') /\ host_call e f mem (HGet64 id) g' = (Ok (n mod 256 ^ s, mem, f), g')
   else host_call e f mem (HSet32 id n) g = (Panic, g)) /\
  (if s <=? 8 then exists g', host_call e f mem (HSet64 id n) g = (Ok (0, mem, f), g')
       /\ host_call e f mem (HGet32 id) g' = (Ok ((n mod 256 ^ s) mod 2 ^ 32, mem, f), g') /\ host_call e f mem (HGet64 id) g' = (Ok (n mod 256 ^ s, mem, f), g')
   else host_call e f mem (HSet64 id n) g = (Panic, g) /\ host_call e f mem (HGet32 id) g = (Panic, g) /\ host_call e f mem (HGet64 id) g = (Panic, g)).
Proof.
  intros e en g c f mem id s n HI HC HH HE HR Ha Hm HD H0. pose proof (rt_live e en g c HI HC HH HE HR) as HL.
  assert (W : exists bs, get_var_vec e (fe_account f) id g = (Ok bs, g) /\ nlen bs = s
    /\ get_var_i64 e (fe_account f) id g = (if s <=? 8 then Ok (le_value bs) else Panic, g)
    /\ (forall value, nlen value < s -> set_var_bytes e (fe_account f) id value g = (Panic, g))).
  { destruct HD as (first & sizes & i & HF & -> & Hi). destruct (C22_widths e g (fe_account f) first sizes i s HI HC (proj1 HL) Ha HF Hi H0) as (bs & A & B & _ & D & _ & F). eauto 6. }
  destruct W as (bs & _ & _ & W8 & Ws).
  assert (Small : s <= 4 -> (n mod 256 ^ s) mod 2 ^ 32 = n mod 256 ^ s).
  { intros L. apply N.mod_small. apply N.lt_le_trans with (256 ^ s); [apply N.mod_lt, N.pow_nonzero; lia|]. change (2 ^ 32) with (256 ^ 4). apply N.pow_le_mono_r; lia. }
  split.
  - destruct (N.leb_spec s 4) as [L|L].
    + destruct (set_get_array e g (fe_account f) id s 4 8 n HI HC HL Ha HD H0) as (g' & E & HL' & b & Eg & Ev); try lia.
      exists g'. cbn [host_call]. unfold can_write, can_read. rewrite Hm. cbn [sassert]. unfold sbind, sret at 1 3 5, sunwrap, set_var_i32, get_var_i64, gbind. rewrite E, Eg. cbn [gret]. unfold gret, sret. rewrite Ev, (Small L). auto.
    + cbn [host_call]. unfold can_write. rewrite Hm. cbn [sassert]. unfold sbind, sret at 1, sunwrap, set_var_i32. rewrite Ws; [reflexivity|]. unfold nlen. rewrite le_bytes_length. lia.
  - destruct (N.leb_spec s 8) as [L|L].
    + destruct (set_get_array e g (fe_account f) id s 8 8 n HI HC HL Ha HD H0) as (g' & E & HL' & b & Eg & Ev); try lia.
      exists g'. cbn [host_call]. unfold can_write, can_read. rewrite Hm. cbn [sassert]. unfold sbind, sret at 1 3 5, sunwrap, set_var_i64, get_var_i64, gbind. rewrite E, Eg. cbn [gret]. unfold gret, sret. rewrite Ev. auto.
    + cbn [host_call]. unfold can_write, can_read. rewrite Hm. cbn [sassert]. unfold sbind, sret at 1 3 5, sunwrap, set_var_i64. rewrite Ws by (unfold nlen; rewrite le_bytes_length; lia).
      rewrite W8. auto.
Qed.
Print Assumptions C63_any_size.
Example C63_any_size_satisfiable : declares rx_acc 0 8 /\ declares rx_acc 1 4 /\ fe_mode rx_func_env = FullAccess.
Proof. split; [apply (rx_declares 0 8 eq_refl)|]. split; [apply (rx_declares 1 4 eq_refl)|reflexivity]. Qed.

(** ** C64 A commit succeeds exactly if nothing is pending: it then adds the next layer, and what
    can be read stays as it was.  Otherwise it is an error and changes nothing. *)
Theorem C64_commit_exactly :
  forall e en g c,
  iterates e -> collision_free e -> hash_wf e -> engine_wf en -> rt_reachable e en g c ->
  if has_uncommitted_changes (gs_storage g) then rt_commit e g = (Err (OOG, []), g)
  else exists layer before after g', rt_commit e g = (Ok tt, g') /\ last_layer (gs_storage g) = Ok (layer, before)
    /\ last_layer (gs_storage g') = Ok (layer + 1, after)%Z /\ unchanged_except e nobody nobody g g'.
Proof.
  intros e en g c HI HC HH HE HR. pose proof (rt_live e en g c HI HC HH HE HR) as HL.
  destruct (has_uncommitted_changes (gs_storage g)) eqn:U.
  - unfold rt_commit, gs_commit, gbind, gs_commit_raw, commit. unfold has_uncommitted_changes in U. destruct (st_dirty (gs_storage g)); [discriminate U|]. cbn [lift]. now destruct g.
  - destruct (C64_commit_partial e en g c HI HC HH HE HR U) as [_ X].
    pose proof (live_next e g HI HL) as Hn.
    destruct (commit_spec e (gs_storage g) HI (gs_reachable_storage e g (proj1 HL)) U) as (l & prev & fp & s' & Lp & C & Ll & _).
    assert (Hl : l = st_next_id (gs_storage g)).
    { unfold last_layer in Lp. destruct (_ <? _)%Z; [|discriminate]. destruct (layer_fingerprint _ _ _); try discriminate. injection Lp as Lp _. lia. }
    assert (E : rt_commit e g = (Ok tt, mkGstate s' (gs_layer_param g))).
    { unfold rt_commit, gs_commit, gbind, gs_commit_raw. rewrite C. cbn [lift]. unfold layer_of, gsome. destruct (Z.ltb_spec l 0); [lia|reflexivity]. }
    rewrite E in X. exists (l - 1)%Z, prev, fp. eexists. split; [exact E|]. split; [exact Lp|]. split; [|exact X]. cbn [gs_storage]. replace (l - 1 + 1)%Z with l by lia. exact Ll.
Qed.
Print Assumptions C64_commit_exactly.
Example C64_commit_satisfiable :
  has_uncommitted_changes (gs_storage rx_start) = false /\ has_uncommitted_changes (gs_storage rx_state) = true.
Proof. split; vm_compute; reflexivity. Qed.

(** ** C66 *)
Lemma storable_wf i m l rest : bytes_ok m -> dec_sections i m = Ok (l, rest) -> (storable l <-> sections_wf l).
Proof.
  intros B D. destruct (yields_sections i m l rest B D) as [[Nd F] _]. split.
  - intros S. split; [exact Nd|]. unfold storable in S. rewrite Forall_forall in *. intros s Hs. specialize (F s Hs). destruct (S s Hs) as [Sz X]. split; [|exact Sz].
    destruct s; cbn [section_wf0 section_wf] in *; try tauto.
    + split; [tauto|]. destruct F as [_ F]. rewrite Forall_forall in *. intros y Hy. destruct (F y Hy) as (first & sizes & A & B' & C' & D' & E' & G'). exists first, sizes. split; [exact A|]. split; [|auto].
      specialize (X y Hy). cbn beta in X. unfold nlen in *. lia.
    + split; [|tauto]. lia.
  - intros [_ W]. unfold storable. rewrite Forall_forall in *. intros s Hs. destruct (W s Hs) as [Ws Sz]. split; [exact Sz|]. destruct s; cbn [section_wf] in Ws; auto.
    + destruct Ws as [_ W']. rewrite Forall_forall in *. intros y Hy. destruct (W' y Hy) as (first & sizes & A & B' & C' & D' & E' & G' & _). unfold nlen in *. lia.
    + lia.
Qed.
Lemma code_of_in l : In KCode (map section_kind_of l) <-> code_of l <> None.
Proof.
  unfold code_of, get_section. induction l as [|s l IH]; [cbn; tauto|]. cbn [map In find]. destruct s; cbn; try (rewrite <- IH; intuition discriminate). split; [discriminate|auto].
Qed.
(** A message deploys exactly if it is affordable, its sections include the code, and they can be
    written back; then the template found at the address of its code has exactly these sections.
    One that can be read but not afforded is answered with "out of gas", changing nothing.  Every
    other message aborts. *)
Theorem C66_deploys_exactly :
  forall e en g c ev m,
  iterates e -> collision_free e -> hash_wf e -> engine_wf en -> rt_reachable e en g c -> bytes_ok m ->
  (forall rc, fst (deploy e ev m g) = Some rc /\ dr_success rc = true <->
     affords (env_gas_limit ev) m /\ exists l rest code, dec_sections None m = Ok (l, rest) /\ storable l /\ code_of l = Some code
       /\ rc = mkDeployReceipt 0 true None (Some (firstn 20 (env_hash e (cs_code code)))) (Some (1000 * nlen m)) []
       /\ fst (template_sections e (firstn 20 (env_hash e (cs_code code))) (snd (deploy e ev m g))) = Ok l) /\
  (forall rc, fst (deploy e ev m g) = Some rc /\ dr_success rc = false <->
     ~ affords (env_gas_limit ev) m /\ (exists l rest, dec_sections None m = Ok (l, rest)) /\ rc = deploy_from_err OOG [] /\ snd (deploy e ev m g) = g) /\
  (fst (deploy e ev m g) = None <->
     (forall l rest, dec_sections None m <> Ok (l, rest)) \/
     affords (env_gas_limit ev) m /\ exists l rest, dec_sections None m = Ok (l, rest) /\ (~ In KCode (map section_kind_of l) \/ ~ storable l)).
Proof.
  intros e en g c ev m HI HC HH HE HR B. pose proof (rt_live e en g c HI HC HH HE HR) as HL.
  unfold deploy, decoded. destruct (dec_sections None m) as [[l rest]|er|] eqn:D.
  2-3: (cbn [fst snd]; split; [intros rc; split; [intros [X _]; discriminate X|intros (_ & l & rest & code & X & _); discriminate X]|];
        split; [intros rc; split; [intros [X _]; discriminate X|intros (_ & (l & rest & X) & _); discriminate X]|];
        split; [intros _; left; discriminate|reflexivity]).
  assert (Af : if gas_lt (env_gas_limit ev) (deploy_price m) then ~ affords (env_gas_limit ev) m else affords (env_gas_limit ev) m).
  { unfold gas_lt, affords, deploy_price. destruct (env_gas_limit ev) as [n|]; [|exact I]. destruct (N.ltb_spec n (1000 * nlen m)); lia. }
  destruct (gas_lt (env_gas_limit ev) (deploy_price m)); cbn [fst snd].
  { split; [intros rc; split; [intros [[= <-] X]; discriminate X|tauto]|]. split.
    - intros rc. split; [intros [[= <-] _]; eauto 6|]. intros (_ & _ & -> & _). auto.
    - split; [discriminate|]. intros [X|[X _]]; [now elim (X l rest)|contradiction]. }
  destruct (code_of l) as [code|] eqn:Ec.
  2:{ assert (Nk : ~ In KCode (map section_kind_of l)) by (rewrite code_of_in, Ec; tauto). cbn [fst snd]. split; [intros rc; split; [intros [X _]; discriminate X|intros (_ & l' & rest' & code & [= <- <-] & _ & X & _); congruence]|].
      split; [intros rc; split; [intros [X _]; discriminate X|tauto]|]. split; [eauto 8|reflexivity]. }
  assert (Ha : array_wf 20 (template_addr e (cs_code code))) by now apply addr_wf.
  assert (Kc : In KCode (map section_kind_of l)) by (rewrite code_of_in, Ec; discriminate).
  destruct (enc_sections l) as [b|] eqn:Ee.
  - pose proof (sections_accepted None m l rest b B D Ee) as Hw.
    destruct (template_create_effect e _ l l g HC (live_typed e g HI HC HL) Ha Hw Hw) as (g' & -> & _ & _ & F). specialize (F (proj2 HL)). cbn [fst snd].
    unfold deploy_new, deploy_price, template_addr in *. pose proof (proj2 (storable_wf None m l rest B D) Hw) as St.
    assert (F' : fst (template_sections e (firstn 20 (env_hash e (cs_code code))) g') = Ok l) by (rewrite F; cbn [fst]; f_equal; apply merge_self, Hw).
    split; [intros rc; split; [intros [[= <-] _]; split; [exact Af|]; exists l, rest, code; auto|intros (_ & l' & rest' & code' & [= <- <-] & _ & X & -> & _)]|].
    { rewrite Ec in X. injection X as <-. auto. }
    split; [intros rc; split; [intros [[= <-] X]; discriminate X|tauto]|]. split; [discriminate|]. intros [X|(_ & l' & rest' & [= <- <-] & [X|X])]; [now elim (X l rest)|contradiction|contradiction].
  - assert (Ns : ~ storable l). { intros S. apply (storable_wf None m l rest B D) in S. destruct (sections_rt l S) as (b & E & _). congruence. }
    unfold template_create, encode_and_write, gbind. rewrite Ee. cbn [gsome gpanic fst snd]. unfold gpanic. cbn [fst snd].
    split; [intros rc; split; [intros [X _]; discriminate X|intros (_ & l' & rest' & code' & [= <- <-] & X & _); contradiction]|].
    split; [intros rc; split; [intros [X _]; discriminate X|tauto]|]. split; [|reflexivity]. intros _. right. split; [exact Af|]. exists l, rest. auto.
Qed.
Print Assumptions C66_deploys_exactly.
Example C66_deploys_satisfiable :
  bytes_ok (rx_deploy 1) /\ (exists l rest, dec_sections None (rx_deploy 1) = Ok (l, rest) /\ storable l) /\
  bytes_ok rx_many /\ (exists l rest, dec_sections None rx_many = Ok (l, rest) /\ ~ storable l).
Proof.
  split; [apply bytes_okb_ok; vm_compute; reflexivity|]. split.
  { do 2 eexists. split; [vm_compute; reflexivity|]. repeat constructor; vm_compute; discriminate. }
  split; [apply bytes_okb_ok; vm_compute; reflexivity|]. do 2 eexists. split; [vm_compute; reflexivity|].
  intros S. apply (Forall_inv_tail) in S. apply (Forall_inv_tail) in S. apply Forall_inv in S. destruct S as [_ S]. apply S. vm_compute. reflexivity.
Qed.

(** ** C73 Validating a deployment aborts exactly on the bytes on which decoding does, and on a
    module with a required export that designates no function of its own; every error has its
    cause. *)
Theorem C73_aborts_exactly :
  forall parse m, bytes_ok m ->
  (ProgramModel.validate_deploy parse m = Panic <->
   bad_template None m \/
   exists t rest code md, dec_template None m = Ok (t, rest) /\ ProgramModel.template_code t = Some code /\ parse code = Some md /\ foreign_export md).
Proof.
  intros parse m B. unfold ProgramModel.validate_deploy. destruct (C56_aborts_exactly None m B) as [_ Ab].
  destruct (dec_template None m) as [[t rest]|er|] eqn:D.
  2:{ split; [discriminate|]. intros [X|(t & rest & code & md & X & _)]; [apply Ab in X; discriminate X|discriminate X]. }
  2:{ split; [intros _; left; apply Ab; reflexivity|reflexivity]. }
  assert (Nb : ~ bad_template None m) by (rewrite <- Ab; discriminate).
  destruct (ProgramModel.template_code t) as [code|] eqn:Ec.
  2:{ exfalso. apply (SectionProps.C12_mandatory_sections None m) in D. destruct D as [_ D]. specialize (D KCode (or_introl eq_refl)). clear -D Ec.
      unfold ProgramModel.template_code in Ec. induction t as [|s t IH]; [destruct D|]. destruct s; cbn in D, Ec; try discriminate; apply IH; intuition discriminate. }
  pose proof (AcceptProps.C118_aborts (parse code) true) as A.
  destruct (ProgramModel.program_new (parse code) true) as [p|er|] eqn:P.
  - split.
    + intros X. exfalso. destruct (ProgramProofs.validate_spec p) as [[V _]|(e & V & _)]; rewrite V in X; discriminate X.
    + intros [X|(t' & rest' & code' & md & [= <- <-] & E & Em & (cd & l & name & i & r & ty & F))]; [contradiction|]. rewrite Ec in E. injection E as <-.
      exfalso. assert (X : Ok p = Panic) by (apply A; exists md, cd, l, name, i, r, ty; tauto). discriminate X.
  - split; [discriminate|]. intros [X|(t' & rest' & code' & md & [= <- <-] & E & Em & (cd & l & name & i & r & ty & F))]; [contradiction|]. rewrite Ec in E. injection E as <-.
    exfalso. assert (X : @Err _ ProgramModel.program er = Panic) by (apply A; exists md, cd, l, name, i, r, ty; tauto). discriminate X.
  - split; [|reflexivity]. intros _. right. destruct (proj1 A eq_refl) as (md & cd & l & name & i & r & ty & Em & _ & F). exists t, rest, code, md. split; [reflexivity|]. split; [exact Ec|]. split; [exact Em|].
    exists cd, l, name, i, r, ty. tauto.
Qed.
Print Assumptions C73_aborts_exactly.
Theorem C73_errors_exactly :
  forall parse m,
  (forall e, ProgramModel.validate_deploy parse m = Err (ProgramModel.VParse e) <-> dec_template None m = Err e) /\
  (forall e, ProgramModel.validate_deploy parse m = Err (ProgramModel.VProgram e) <->
     exists t rest code, dec_template None m = Ok (t, rest) /\ ProgramModel.template_code t = Some code /\ AcceptSpec.refused true (parse code) (Err e)) /\
  (forall e, ProgramModel.validate_deploy parse m = Err (ProgramModel.VFixedGas e) <->
     exists t rest code md cd p, dec_template None m = Ok (t, rest) /\ ProgramModel.template_code t = Some code /\ parse code = Some md /\
       AcceptSpec.accepted md true cd /\ ProgramModel.program_new (Some md) true = Ok p /\ AcceptSpec.breaks_rules p e).
Proof.
  intros parse m. unfold ProgramModel.validate_deploy. destruct (dec_template None m) as [[t rest]|er|].
  2-3: (split; [intros e; split; congruence|]; split; intros e; (split; [discriminate|]); [intros (t & rest & code & X & _)|intros (t & rest & code & md & cd & p & X & _)]; discriminate X).
  destruct (ProgramModel.template_code t) as [code|] eqn:Ec.
  2:{ split; [intros e; split; discriminate|]. split; intros e; (split; [discriminate|]); [intros (t' & rest' & code & [= <- <-] & X & _)|intros (t' & rest' & code & md & cd & p & [= <- <-] & X & _)]; congruence. }
  pose proof (AcceptProps.C118_refuses (parse code) true) as R. destruct (AcceptProps.C118_accepts (parse code) true) as [A _].
  destruct (ProgramModel.program_new (parse code) true) as [p|er|] eqn:P.
  - split; [intros e; split; [|discriminate]; destruct (ProgramModel.validate_wasm p false); discriminate|]. split; intros e.
    + split; [destruct (ProgramModel.validate_wasm p false); discriminate|]. intros (t' & rest' & code' & [= <- <-] & X & Y). rewrite Ec in X. injection X as <-. apply R in Y. discriminate Y.
    + destruct (proj1 A (ex_intro _ p eq_refl)) as (md & cd & Em & Ac). split.
      * intros H. destruct (ProgramModel.validate_wasm p false) as [?|e'|] eqn:V; try discriminate H. injection H as <-. apply AcceptProps.C118_rules in V.
        exists t, rest, code, md, cd, p. rewrite Em in P. auto 10.
      * intros (t' & rest' & code' & md' & cd' & p' & [= <- <-] & X & Em' & _ & P' & Br). rewrite Ec in X. injection X as <-. rewrite <- Em', P in P'. injection P' as <-.
        apply AcceptProps.C118_rules in Br. now rewrite Br.
  - split; [intros e; split; discriminate|]. split; intros e.
    + split; [intros [= <-]; exists t, rest, code; split; [reflexivity|]; split; [exact Ec|]; now apply R|]. intros (t' & rest' & code' & [= <- <-] & X & Y). rewrite Ec in X. injection X as <-. apply R in Y. congruence.
    + split; [discriminate|]. intros (t' & rest' & code' & md' & cd' & p' & [= <- <-] & X & Em' & _ & P' & Br). rewrite Ec in X. injection X as <-. rewrite <- Em' in P'. congruence.
  - split; [intros e; split; discriminate|]. split; intros e; (split; [discriminate|]).
    + intros (t' & rest' & code' & [= <- <-] & X & Y). rewrite Ec in X. injection X as <-. apply R in Y. discriminate Y.
    + intros (t' & rest' & code' & md' & cd' & p' & [= <- <-] & X & Em' & _ & P' & Br). rewrite Ec in X. injection X as <-. rewrite <- Em' in P'. congruence.
Qed.
Print Assumptions C73_errors_exactly.
(** Bytes on which decoding aborts; a module that exports an imported function as [svm_alloc]. *)
Example C73_exactly_satisfiable :
  dec_sections None [0; 1; 0; 4; 0; 0; 0; 0] = Panic /\ foreign_export ProgramProps.reexport_module.
Proof.
  split; [vm_compute; reflexivity|].
  exists [], [], (txt "svm_alloc"), 0, [], ([ProgramModel.I32], [ProgramModel.I32]).
  split; [reflexivity|]. split; [vm_compute; discriminate|].
  split; [intros x (b & [] & _)|]. split; [reflexivity|]. split; [constructor|]. split; [constructor|].
  intros t' (gl & n & r & _ & _ & X & _). cbn in X. now destruct n.
Qed.
