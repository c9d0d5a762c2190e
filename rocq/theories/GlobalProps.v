(** C22, C23, C57, C58: accounts, their variables, templates, and historical reads. *)
From Coq Require Import List NArith ZArith Bool Lia.
From Coq Require Import ZifyBool ZifyNat ZifyN.
From Verif Require Import Base CodecModel CodecSpec ReceiptModel LayoutModel LayoutSpec SectionModel SectionSpec.
From Verif Require Import StorageModel StorageSpec StorageProps GlobalModel GlobalSpec GlobalProofs.
Import ListNotations.
Open Scope N_scope.

(** A concrete world for the examples: one template with three variables of 10, 20 and 40
    bytes, one account created from it. *)
Definition ex_sizes : list N := [10; 20; 40].
Definition ex_layout : fixed_layout :=
  match from_byte_sizes 0 ex_sizes with Some l => l | None => default_layout end.
Definition ex_sections : sections :=
  [SCode (mkCode 0 [0; 97; 115; 109] 0 Fixed); SData [ex_layout]; SCtors [[105; 110; 105; 116]]].
Definition ex_taddr : bytes := repeat 128 20.
Definition ex_addr : bytes := repeat 7 20.
Definition ex_other : bytes := repeat 8 20.
Definition ex_name : bytes := [97; 98].
Definition ex_account : account := mkAccount ex_addr ex_taddr ex_layout.
Definition ex_g0 : gstate :=
  match gs_new ex_env empty_db [(ex_taddr, ex_sections)] with Some g => g | None => mkGstate fresh None end.
Definition ex_g1 : gstate := run_gop ex_env (GCreate ex_addr ex_name ex_taddr 5 0) ex_g0.

Lemma ex_collision_free : collision_free ex_env.
Proof. intros a b _ _ H. exact H. Qed.
Lemma ex_addr_wf n : n < 256 -> array_wf 20 (repeat n 20).
Proof. intros H. split; [apply repeat_length|]. apply Forall_forall. intros x Hx. apply repeat_spec in Hx. now subst. Qed.
Lemma ex_sections_wf : sections_wf ex_sections.
Proof.
  split.
  - repeat constructor; cbn; intuition discriminate.
  - unfold ex_sections. repeat match goal with |- Forall _ (_ :: _) => constructor | |- Forall _ [] => constructor end;
      (split; [|vm_compute; reflexivity]).
    + cbn. repeat split; try reflexivity. apply bytes_okb_ok. reflexivity.
    + split; [discriminate|]. constructor; [|constructor]. exists 0, ex_sizes.
      split; [reflexivity|]. split; [reflexivity|]. split; [repeat constructor|].
      split; [discriminate|]. split; [discriminate|]. split; [reflexivity|].
      apply (LayoutProofs.from_byte_sizes_inv 0 ex_sizes ex_layout). reflexivity.
    + split; [discriminate|]. constructor; [|constructor]. split; [split; [discriminate|]|reflexivity].
      apply bytes_okb_ok. reflexivity.
Qed.
Lemma ex_g0_reachable : gs_reachable ex_env ex_g0.
Proof.
  apply (gr_new _ [(ex_taddr, ex_sections)]).
  - constructor; [|constructor]. split; [now apply ex_addr_wf|apply ex_sections_wf].
  - vm_compute. reflexivity.
Qed.
Lemma ex_name_wf : string_wf 255 ex_name.
Proof. split; [split; [discriminate|apply bytes_okb_ok; reflexivity]|reflexivity]. Qed.
Lemma ex_g1_reachable : gs_reachable ex_env ex_g1.
Proof.
  apply gr_op; [apply ex_g0_reachable|].
  repeat split; try apply ex_name_wf; try (now apply ex_addr_wf); try reflexivity.
Qed.
Example ex_g1_loads :
  account_load ex_env ex_addr ex_g1 = (Ok ex_account, ex_g1)
  /\ fields_of ex_env ex_addr ex_g1 = (Ok ex_name, Ok ex_taddr, Ok 5, Ok 0).
Proof. split; vm_compute; reflexivity. Qed.

(** ** C22 Account variables: write then read *)
Theorem C22_set_then_get :
  forall e g a first sizes i s value,
  iterates e -> collision_free e -> gs_reachable e g -> array_wf 20 (ac_addr a) ->
  from_byte_sizes first sizes = Some (ac_layout a) ->
  nth_error sizes i = Some s -> 0 < s -> s <= nlen value -> bytes_ok value ->
  exists g', set_var_bytes e a (first + N.of_nat i) value g = (Ok tt, g')
    /\ gs_reachable e g'
    /\ get_var_vec e a (first + N.of_nat i) g' = (Ok (firstn (N.to_nat s) value), g').
Proof. exact set_then_get. Qed.
Print Assumptions C22_set_then_get.

(** The third variable, bytes 30 to 69, spans three segments. *)
Definition ex_value : bytes := map N.of_nat (seq 1 40).
Example C22_satisfiable :
  iterates ex_env /\ collision_free ex_env /\ gs_reachable ex_env ex_g1
  /\ array_wf 20 (ac_addr ex_account) /\ from_byte_sizes 0 ex_sizes = Some (ac_layout ex_account)
  /\ nth_error ex_sizes 2 = Some 40 /\ 40 <= nlen ex_value /\ bytes_ok ex_value
  /\ fst (get_var_vec ex_env ex_account 2 (snd (set_var_bytes ex_env ex_account 2 ex_value ex_g1))) = Ok ex_value
  /\ fst (get_var_vec ex_env ex_account 2 ex_g1) = Ok (repeat 0 40).
Proof.
  split; [apply ex_env_iterates|]. split; [apply ex_collision_free|]. split; [apply ex_g1_reachable|].
  split; [now apply ex_addr_wf|]. repeat split; try (vm_compute; reflexivity).
  - vm_compute. discriminate.
  - apply bytes_okb_ok. reflexivity.
Qed.

(** ** C23 Account variables: isolation *)
Theorem C23_isolation :
  forall e g a first sizes i s value g',
  iterates e -> collision_free e -> gs_reachable e g -> array_wf 20 (ac_addr a) ->
  from_byte_sizes first sizes = Some (ac_layout a) -> nth_error sizes i = Some s -> bytes_ok value ->
  set_var_bytes e a (first + N.of_nat i) value g = (Ok tt, g') ->
  (forall j, j <> i ->
     fst (get_var_vec e a (first + N.of_nat j) g') = fst (get_var_vec e a (first + N.of_nat j) g))
  /\ (forall b id, array_wf 20 (ac_addr b) -> ac_addr b <> ac_addr a ->
        fst (get_var_vec e b id g') = fst (get_var_vec e b id g))
  /\ (forall addr, array_wf 20 addr -> fields_of e addr g' = fields_of e addr g)
  /\ (forall t, array_wf 20 t -> fst (template_sections e t g') = fst (template_sections e t g)).
Proof. exact set_isolated. Qed.
Print Assumptions C23_isolation.
Example C23_satisfiable :
  exists g', set_var_bytes ex_env ex_account 1 (repeat 9 20) ex_g1 = (Ok tt, g')
  /\ fst (get_var_vec ex_env ex_account 0 g') = Ok (repeat 0 10)
  /\ fst (get_var_vec ex_env ex_account 2 g') = Ok (repeat 0 40)
  /\ fields_of ex_env ex_addr g' = (Ok ex_name, Ok ex_taddr, Ok 5, Ok 0).
Proof. eexists. split; [vm_compute; reflexivity|]. repeat split; vm_compute; reflexivity. Qed.

(** ** C57 Account records: create, update, read *)

(** A new account has the fields it was created with; nothing else changes. *)
Theorem C57_create_stub :
  forall e g addr name b c,
  iterates e -> collision_free e -> gs_reachable e g -> gs_layer_param g = None ->
  array_wf 20 addr -> string_wf 255 name -> uint_wf 64 b -> uint_wf 128 c ->
  exists g', account_create_stub e addr name b c g = (Ok (mkAccount addr (repeat 0 20) default_layout), g')
    /\ fields_of e addr g' = (Ok name, Ok (repeat 0 20), Ok b, Ok c)
    /\ (forall x, array_wf 20 x -> x <> addr -> fields_of e x g' = fields_of e x g)
    /\ (forall a id, array_wf 20 (ac_addr a) -> fst (get_var_vec e a id g') = fst (get_var_vec e a id g))
    /\ (forall t, array_wf 20 t -> fst (template_sections e t g') = fst (template_sections e t g)).
Proof.
  intros e g addr name b c HI HC HR HP Ha Hn Hb Hc. pose proof (reachable_typed e g HI HC HR) as HT.
  destruct (write_account_effect e addr name stub_template b c g) as (g' & W & HT' & O & F); auto.
  { now apply ex_addr_wf. }
  exists g'. unfold account_create_stub, gbind. rewrite W. split; [reflexivity|]. split; [auto|]. split; [|split].
  - intros x Hx Hne. eapply only_fields; eauto; intros [E|E]; congruence.
  - intros a id Hw. eapply only_var_vec; eauto. intros n [E|E]; discriminate.
  - intros t Ht. eapply only_sections; eauto; intros [E|E]; discriminate.
Qed.
Print Assumptions C57_create_stub.

Theorem C57_create :
  forall e g addr name taddr b c layout,
  iterates e -> collision_free e -> gs_reachable e g -> gs_layer_param g = None ->
  array_wf 20 addr -> string_wf 255 name -> array_wf 20 taddr -> uint_wf 64 b -> uint_wf 128 c ->
  fst (template_layout e taddr g) = Ok layout ->
  exists g', account_create e addr name taddr b c g = (Ok (mkAccount addr taddr layout), g')
    /\ account_load e addr g' = (Ok (mkAccount addr taddr layout), g')
    /\ fields_of e addr g' = (Ok name, Ok taddr, Ok b, Ok c)
    /\ (forall x, array_wf 20 x -> x <> addr -> fields_of e x g' = fields_of e x g)
    /\ (forall a id, array_wf 20 (ac_addr a) -> fst (get_var_vec e a id g') = fst (get_var_vec e a id g))
    /\ (forall t, array_wf 20 t -> fst (template_sections e t g') = fst (template_sections e t g)).
Proof.
  intros e g addr name taddr b c layout HI HC HR HP Ha Hn Ht Hb Hc HL.
  pose proof (reachable_typed e g HI HC HR) as HT.
  destruct (write_account_effect e addr name taddr b c g) as (g' & W & HT' & O & F); auto.
  pose proof (reads_layout e taddr g) as RL.
  exists g'. unfold account_create, gbind.
  destruct (template_layout e taddr g) as [o g0] eqn:EL. cbn [fst snd] in HL, RL. subst.
  rewrite W. split; [reflexivity|].
  assert (HS : forall t, array_wf 20 t -> fst (template_sections e t g') = fst (template_sections e t g)).
  { intros t Hwt. eapply only_sections; eauto; intros [E|E]; discriminate. }
  split; [|split; [auto|split; [|split; [|auto]]]].
  - specialize (F HP). unfold fields_of in F. injection F as F1 F2 F3 F4.
    unfold account_load, account_template, gbind in *.
    pose proof (reads_decode e dec_account_data (key_immutable addr) g') as R1.
    destruct (read_and_decode e dec_account_data (key_immutable addr) g') as [[d|?|] g2]; cbn [fst snd gret] in *; try discriminate.
    subst g2. injection F2 as ->.
    unfold template_layout, gbind in *. specialize (HS taddr Ht).
    pose proof (reads_sections e taddr g) as R2. pose proof (reads_sections e taddr g') as R3.
    destruct (template_sections e taddr g) as [[l|?|] ?]; try discriminate.
    destruct (template_sections e taddr g') as [[l'|?|] ?]; cbn [fst snd] in *; try discriminate. subst.
    injection HS as ->. destruct (get_section KData l) as [[| |[|]| | | |]|]; try discriminate.
    cbn in EL. injection EL as ->. reflexivity.
  - intros x Hx Hne. eapply only_fields; eauto; intros [E|E]; congruence.
  - intros a id Hw. eapply only_var_vec; eauto. intros n [E|E]; discriminate.
Qed.
Print Assumptions C57_create.
Example C57_create_satisfiable :
  gs_layer_param ex_g0 = None /\ fst (template_layout ex_env ex_taddr ex_g0) = Ok ex_layout.
Proof. split; vm_compute; reflexivity. Qed.

(** Setting a balance or a counter changes that field of that account only; on a missing
    account it fails and changes nothing. *)
Theorem C57_set_balance :
  forall e g addr b',
  iterates e -> collision_free e -> gs_reachable e g -> gs_layer_param g = None ->
  array_wf 20 addr -> uint_wf 64 b' ->
  match fields_of e addr g with
  | (n, t, Ok b, c) => exists g', set_balance e addr b' g = (Ok tt, g')
      /\ fields_of e addr g' = (n, t, Ok b', c)
      /\ (forall x, array_wf 20 x -> x <> addr -> fields_of e x g' = fields_of e x g)
      /\ (forall a id, array_wf 20 (ac_addr a) -> fst (get_var_vec e a id g') = fst (get_var_vec e a id g))
      /\ (forall x, array_wf 20 x -> fst (template_sections e x g') = fst (template_sections e x g))
  | (_, _, Err er, _) => er = GNotFound /\ set_balance e addr b' g = (Err GNotFound, g)
  | (_, _, Panic, _) => False
  end.
Proof.
  intros e g addr b' HI HC HR HP Ha Hb. pose proof (reachable_typed e g HI HC HR) as HT.
  unfold fields_of at 1.
  destruct (replace_mut_effect e addr (fun d => mkAccountMut b' (am_counter d)) g HC HT Ha HP)
    as [(d & g' & Hr & Hd & HS & HT' & O & Hr')|(Hr & HS)].
  { intros d [? ?]. now split. }
  - unfold account_balance at 1, gbind at 1. rewrite Hr. cbn [gret fst].
    exists g'. split; [exact HS|]. split; [|split; [|split]].
    + unfold fields_of, account_name, account_template.
      rewrite !(bind_read_same _ _ g g').
      2,3: apply decode_same; try apply O; apply (on_cur _ _ _ _ O (TImm addr)); [now split|discriminate].
      unfold account_balance, account_counter, gbind. now rewrite Hr, Hr'.
    + intros x Hx Hne. eapply only_fields; eauto; intros E; congruence.
    + intros a id Hw. eapply only_var_vec; eauto. intros n E; discriminate.
    + intros t Ht. eapply only_sections; eauto; intros E; discriminate.
  - unfold account_balance at 1, gbind at 1. rewrite Hr. cbn [gret fst]. split; auto.
Qed.
Print Assumptions C57_set_balance.

Theorem C57_set_counter :
  forall e g addr c',
  iterates e -> collision_free e -> gs_reachable e g -> gs_layer_param g = None ->
  array_wf 20 addr -> uint_wf 128 c' ->
  match fields_of e addr g with
  | (n, t, b, Ok c) => exists g', set_counter e addr c' g = (Ok tt, g')
      /\ fields_of e addr g' = (n, t, b, Ok c')
      /\ (forall x, array_wf 20 x -> x <> addr -> fields_of e x g' = fields_of e x g)
      /\ (forall a id, array_wf 20 (ac_addr a) -> fst (get_var_vec e a id g') = fst (get_var_vec e a id g))
      /\ (forall x, array_wf 20 x -> fst (template_sections e x g') = fst (template_sections e x g))
  | (_, _, _, Err er) => er = GNotFound /\ set_counter e addr c' g = (Err GNotFound, g)
  | (_, _, _, Panic) => False
  end.
Proof.
  intros e g addr c' HI HC HR HP Ha Hc. pose proof (reachable_typed e g HI HC HR) as HT.
  unfold fields_of at 1.
  destruct (replace_mut_effect e addr (fun d => mkAccountMut (am_balance d) c') g HC HT Ha HP)
    as [(d & g' & Hr & Hd & HS & HT' & O & Hr')|(Hr & HS)].
  { intros d [? ?]. now split. }
  - unfold account_counter at 1, gbind at 1. rewrite Hr. cbn [gret fst].
    exists g'. split; [exact HS|]. split; [|split; [|split]].
    + unfold fields_of, account_name, account_template.
      rewrite !(bind_read_same _ _ g g').
      2,3: apply decode_same; try apply O; apply (on_cur _ _ _ _ O (TImm addr)); [now split|discriminate].
      unfold account_balance, account_counter, gbind. now rewrite Hr, Hr'.
    + intros x Hx Hne. eapply only_fields; eauto; intros E; congruence.
    + intros a id Hw. eapply only_var_vec; eauto. intros n E; discriminate.
    + intros t Ht. eapply only_sections; eauto; intros E; discriminate.
  - unfold account_counter at 1, gbind at 1. rewrite Hr. cbn [gret fst]. split; auto.
Qed.
Print Assumptions C57_set_counter.
Example C57_set_satisfiable :
  fields_of ex_env ex_addr (snd (set_balance ex_env ex_addr 77 ex_g1)) = (Ok ex_name, Ok ex_taddr, Ok 77, Ok 0)
  /\ fst (set_balance ex_env ex_other 77 ex_g1) = Err GNotFound
  /\ fields_of ex_env ex_addr (snd (set_counter ex_env ex_addr 3 ex_g1)) = (Ok ex_name, Ok ex_taddr, Ok 5, Ok 3).
Proof. repeat split; vm_compute; reflexivity. Qed.

(** ** C58 Historical reads through the layer parameter *)

(** Account records and templates: with the parameter set to a committed layer, reads
    return what was current when that layer was committed, whatever happened since, as
    long as no rewind went below it.  Missing: variables, see the refutation. *)
Theorem C58_records_at_layer_partial :
  forall e g l fp g1 ops addr, iterates e -> gs_reachable e g ->
  gs_commit e g = (Ok (l, fp), g1) -> l < 2 ^ 63 ->
  Forall (fun o => match o with GRewind l' => l <= l' | _ => True end) ops ->
  fields_of e addr (at_layer (Some l) (run_gops e ops g1)) = fields_of e addr (at_layer None g)
  /\ fst (template_sections e addr (at_layer (Some l) (run_gops e ops g1)))
     = fst (template_sections e addr (at_layer None g)).
Proof. exact fields_at_layer. Qed.
Print Assumptions C58_records_at_layer_partial.
Definition ex_g2 : gstate := run_gops ex_env [GSetVar ex_account 0 (repeat 1 10); GCheckpoint] ex_g1.
Definition ex_g3 : gstate := snd (gs_commit ex_env ex_g2).
Definition ex_after : list gop :=
  [GSetBalance ex_addr 99; GSetVar ex_account 0 (repeat 2 10); GCheckpoint; GCommit].
Example C58_satisfiable :
  gs_reachable ex_env ex_g2
  /\ (exists fp, gs_commit ex_env ex_g2 = (Ok (0, fp), ex_g3))
  /\ fst (account_balance ex_env ex_addr (run_gops ex_env ex_after ex_g3)) = Ok 99
  /\ fst (account_balance ex_env ex_addr (at_layer (Some 0) (run_gops ex_env ex_after ex_g3))) = Ok 5.
Proof.
  split.
  - unfold ex_g2, run_gops. cbn [fold_left]. apply gr_op; [|exact I]. apply gr_op; [apply ex_g1_reachable|].
    split; [now apply ex_addr_wf|]. apply bytes_okb_ok. reflexivity.
  - repeat split; try (vm_compute; reflexivity). eexists. vm_compute. reflexivity.
Qed.

(** A variable read "at layer 0" returns today's value, not the one of layer 0: the layer
    parameter is ignored by the variable getters. *)
Theorem C58_variables_refuted :
  exists g fp g1, gs_reachable ex_env g /\ gs_commit ex_env g = (Ok (0, fp), g1)
  /\ fst (get_var_vec ex_env ex_account 0 g) = Ok (repeat 1 10)
  /\ fst (get_var_vec ex_env ex_account 0 (at_layer (Some 0) (run_gops ex_env ex_after g1))) = Ok (repeat 2 10).
Proof.
  destruct C58_satisfiable as (H1 & (fp & H2) & _).
  exists ex_g2, fp, ex_g3. split; [exact H1|]. split; [exact H2|]. split; vm_compute; reflexivity.
Qed.
Print Assumptions C58_variables_refuted.
