(** Property theorems for templates in memory and genesis. *)
From Coq Require Import List NArith ZArith Lia Bool Permutation.
From Coq Require Import ZifyBool ZifyNat ZifyN.
From Verif Require Import Base CodecModel CodecSpec CodecProofs LayoutModel LayoutSpec ReceiptModel SectionModel SectionSpec SectionProofs.
From Verif Require Import StorageModel StorageSpec GlobalModel GlobalSpec GlobalProofs RuntimeModel RuntimeSpec RuntimeProofs RuntimeProps.
From Verif Require Import ObserveProps FfiModel FfiSpec FfiProps TemplateModel TemplateSpec TemplateProofs.
Import ListNotations.
Open Scope N_scope.

(* ------------------------------------------------------------------------------------ *)
(** * C107 Templates in memory *)

(** Whatever is inserted, taken out or set, and in whatever order, a template answers like a
    table with one entry per kind: what was last put there, unless it was taken since; an
    edit panics exactly when a second deploy section is set. *)
Theorem C107_edits :
  forall os,
  match edited_all os nothing with
  | Some (answers, h) => exists l, run_edits os no_sections = Some (answers, l) /\ shows_held l h
  | None => run_edits os no_sections = None
  end.
Proof.
  intros os. pose proof (edits_shown os no_sections nothing shows_nothing) as H.
  destruct (run_edits os no_sections) as [[a l]|], (edited_all os nothing) as [[b h]|]; try contradiction; auto.
  destruct H as [-> H]. eauto.
Qed.
Print Assumptions C107_edits.

(** Reading a section gives what the table holds for its kind and panics when there is none. *)
Theorem C107_readers :
  forall l h, shows_held l h ->
  (forall x, header_section_of l = Some x <-> h KHeader = Some (SHeader x))
  /\ (forall x, code_section_of l = Some x <-> h KCode = Some (SCode x))
  /\ (forall x, code_bytes_of l = Some x <-> exists c, h KCode = Some (SCode c) /\ cs_code c = x)
  /\ (forall x, data_section_of l = Some x <-> h KData = Some (SData x))
  /\ (forall x, fixed_layout_of l = Some x <-> exists r, h KData = Some (SData (x :: r)))
  /\ (forall x, ctors_section_of l = Some x <-> h KCtors = Some (SCtors x))
  /\ (forall x, deploy_section_of l = Some x <-> h KDeploy = Some (SDeploy x))
  /\ (forall x, deployed_addr_of l = Some x <-> exists d, h KDeploy = Some (SDeploy d) /\ ds_template d = x)
  /\ sections_len l = nlen (sections_kinds l) /\ NoDup (sections_kinds l).
Proof.
  intros l h (ND & G & K).
  assert (KK : forall k s, h k = Some s -> section_kind_of s = k).
  { intros k s E. rewrite <- G in E. now apply get_in in E. }
  unfold fixed_layout_of, code_bytes_of, deployed_addr_of, header_section_of, code_section_of, data_section_of, ctors_section_of, deploy_section_of.
  rewrite !G.
  repeat match goal with |- _ /\ _ => split end; auto.
  - intros x. pose proof (KK KHeader) as Q. destruct (h KHeader) as [s|]; [|split; discriminate].
    specialize (Q _ eq_refl). destruct s; try discriminate Q. split; congruence.
  - intros x. pose proof (KK KCode) as Q. destruct (h KCode) as [s|]; [|split; discriminate].
    specialize (Q _ eq_refl). destruct s; try discriminate Q. split; congruence.
  - intros x. pose proof (KK KCode) as Q. destruct (h KCode) as [s|];
      [|split; [discriminate|intros (c & E & _); discriminate E]].
    specialize (Q _ eq_refl). destruct s; try discriminate Q. cbn [option_map].
    split; [intros E; injection E as <-; eauto|intros (c0 & E & E'); congruence].
  - intros x. pose proof (KK KData) as Q. destruct (h KData) as [s|]; [|split; discriminate].
    specialize (Q _ eq_refl). destruct s; try discriminate Q. split; congruence.
  - intros x. pose proof (KK KData) as Q. destruct (h KData) as [s|];
      [|split; [discriminate|intros (c & E); discriminate E]].
    specialize (Q _ eq_refl). destruct s as [| |ls| | | |]; try discriminate Q. cbn [obind].
    destruct ls as [|y r]; cbn [nth_error]; split; try discriminate; try (intros (c & E); discriminate E).
    + intros E. injection E as ->. eauto.
    + intros (c & E). congruence.
  - intros x. pose proof (KK KCtors) as Q. destruct (h KCtors) as [s|]; [|split; discriminate].
    specialize (Q _ eq_refl). destruct s; try discriminate Q. split; congruence.
  - intros x. pose proof (KK KDeploy) as Q. destruct (h KDeploy) as [s|]; [|split; discriminate].
    specialize (Q _ eq_refl). destruct s; try discriminate Q. split; congruence.
  - intros x. pose proof (KK KDeploy) as Q. destruct (h KDeploy) as [s|];
      [|split; [discriminate|intros (c & E & _); discriminate E]].
    specialize (Q _ eq_refl). destruct s; try discriminate Q. cbn [option_map].
    split; [intros E; injection E as <-; eauto|intros (c0 & E & E'); congruence].
  - unfold sections_len, sections_kinds, nlen. now rewrite map_length.
Qed.
Print Assumptions C107_readers.

Definition tx_header : header_section := mkHeader 1 [65] [].
Definition tx_deploy : deploy_section := mkDeploy (repeat 1 32) 10 (repeat 2 20) (repeat 3 20).
Definition tx_code : code_section := mkCode 0 [0; 97] 1 Fixed.
Example C107_satisfiable :
  exists h, edited_all [EInsert (SCode tx_code); EHeader (Some tx_header); ESetDeploy tx_deploy; ETake KCode;
                        EHeader None; ETake KCode] nothing
            = Some ([None; None; None; Some (SCode tx_code); None; None], h)
            /\ h KHeader = Some (SHeader tx_header) /\ h KDeploy = Some (SDeploy tx_deploy) /\ h KCode = None
  /\ edited_all [EDeploy (Some tx_deploy); ESetDeploy tx_deploy] nothing = None.
Proof. eexists. repeat split. Qed.

(** The documentation of [from_sections] promises a panic without the mandatory sections, the
    one of [with_header] and [with_deploy] that [None] removes the section. *)
Theorem C107_documented_refuted :
  (exists t, from_sections [] = Some t /\ code_section_of t = None)
  /\ (exists t h, header_section_of t = Some h /\ header_section_of (with_header t None) = Some h)
  /\ (exists t d, deploy_section_of t = Some d /\ deploy_section_of (with_deploy t None) = Some d).
Proof.
  split; [|split].
  - exists []. split; reflexivity.
  - exists [SHeader tx_header], tx_header. split; reflexivity.
  - exists [SDeploy tx_deploy], tx_deploy. split; reflexivity.
Qed.
Print Assumptions C107_documented_refuted.

(** A built deploy message deploys: the template is found at the address computed from its
    code, with exactly the sections given. *)
Theorem C107_built_template_deploys :
  forall e en g c ev version name layout ctors wasm,
  iterates e -> collision_free e -> hash_wf e -> engine_wf en -> rt_reachable e en g c ->
  uint_wf 32 version -> string_wf 255 name -> layout_wf layout -> nlen ctors <= 254 -> Forall (string_wf 255) ctors ->
  bytes_ok wasm -> nlen wasm <= 4294967000 ->
  exists m, build_deploy version name layout ctors wasm = Some m /\
  (match env_gas_limit ev with Some n => 1000 * nlen m <= n | None => True end ->
   exists g' rc, deploy e ev m g = (Some rc, g') /\ dr_success rc = true
     /\ dr_addr rc = Some (firstn 20 (env_hash e wasm))
     /\ fst (template_sections e (firstn 20 (env_hash e wasm)) g')
        = Ok [SCode (mkCode 0 wasm 1 Fixed); SData [layout]; SCtors ctors; SHeader (mkHeader version name [])]).
Proof.
  intros e en g c ev version name layout ctors wasm HI HC HH HE HR Hv Hn Hl Hc1 Hc2 Hw1 Hw2.
  set (l := [SCode (mkCode 0 wasm 1 Fixed); SData [layout]; SCtors ctors; SHeader (mkHeader version name [])]).
  assert (W : sections_wf l).
  { split; [unfold l; cbn [map section_kind_of]; repeat constructor; cbn; intuition discriminate|].
    constructor; [|constructor; [|constructor; [|constructor; [|constructor]]]].
    - split; [|cbn [section_size cs_code]; lia]. cbn [section_wf cs_svm_version cs_code cs_flags cs_gas_mode].
      split; [reflexivity|]. split; [exact Hw1|]. split; reflexivity.
    - split; [cbn [section_wf]; split; [discriminate|repeat constructor; auto]|].
      cbn [section_size map total]. unfold layout_size. destruct Hl as (first & sizes & _ & Hs & _ & _ & _ & Hlen & _).
      unfold nlen in *. rewrite <- Hlen in Hs. destruct (fl_vars layout); cbn [total fold_right]; [reflexivity|]. lia.
    - split; [cbn [section_wf]; split; auto|]. cbn [section_size].
      assert (T : total (map (fun c => 1 + nlen c) ctors) <= 256 * nlen ctors).
      { clear - Hc2. induction Hc2 as [|x l Hx _ IH]; [cbn; lia|]. cbn [map total fold_right].
        destruct Hx as [[Hx _] _]. unfold total in *. cbn [map fold_right] in *. unfold nlen in *. cbn [length]. lia. }
      lia.
    - split.
      + cbn [section_wf hs_version hs_name hs_desc]. split; auto. split; auto. split; [split; [discriminate|constructor]|reflexivity].
      + cbn [section_size hs_name hs_desc]. destruct Hn as [[Hn _] _]. unfold nlen in *. cbn [length]. lia. }
  destruct (sections_rt l W) as (m & Em & _).
  exists m. split; [exact Em|]. intros Hg.
  destruct (C66_deploy_succeeds e en g c ev m l (mkCode 0 wasm 1 Fixed) HI HC HH HE HR W Em eq_refl Hg) as (g' & D & S).
  exists g'. eexists. split; [exact D|]. split; [reflexivity|]. split; [reflexivity|]. exact S.
Qed.
Print Assumptions C107_built_template_deploys.

(** Built spawn and call messages say what was asked for. *)
Theorem C107_built_messages :
  (forall template name ctor calldata, array_wf 20 template -> string_wf 255 name -> string_wf 255 ctor -> blob_wf 255 calldata ->
   exists m, build_spawn template name ctor calldata = Some m /\
   forall rest, exists sp, dec_spawn (m ++ rest) = Ok (sp, rest) /\ sp_version sp = 0 /\ sp_template sp = template
     /\ sp_name sp = name /\ sp_ctor sp = ctor /\ sp_calldata sp = calldata)
  /\ (forall target func calldata, array_wf 20 target -> string_wf 255 func -> blob_wf 255 calldata ->
   exists m, build_call target func calldata = Some m /\
   forall rest, exists t, dec_transaction (m ++ rest) = Ok (t, rest) /\ tx_version t = 0 /\ tx_target t = target
     /\ tx_func_name t = func /\ tx_calldata t = calldata /\ tx_verifydata t = []).
Proof.
  split.
  - intros template name ctor calldata H1 H2 H3 H4.
    assert (W : spawn_wf (mkSpawn 0 template name ctor calldata)) by (constructor; auto; reflexivity).
    destruct (spawn_rt _ W) as (m & E & D). exists m. split; [exact E|]. intros rest. eexists. split; [apply D|]. repeat split.
  - intros target func calldata H1 H2 H3.
    assert (W : transaction_wf (mkTransaction 0 target func [] calldata)).
    { constructor; auto; [reflexivity|]. split; [discriminate|constructor]. }
    destruct (transaction_rt _ W) as (m & E & D). exists m. split; [exact E|]. intros rest. eexists. split; [apply D|]. repeat split.
Qed.
Print Assumptions C107_built_messages.

(* ------------------------------------------------------------------------------------ *)
(** * C108 Genesis *)

(** A new database starts with its genesis: every template is there with all its sections and
    nothing else is; the mandatory sections are the ones kept apart from the rest, so that
    writing one group leaves the other. *)
Theorem C108_genesis_starts :
  forall e en ts,
  iterates e -> collision_free e -> genesis_wf ts ->
  exists g fp, gs_new e empty_db ts = Some g /\ rt_reachable e en g [] /\ last_layer (gs_storage g) = Ok (-1, fp)%Z
    /\ (forall a l, In (a, l) ts -> exists l', template_at e a None g = Ok l' /\ Permutation l l')
    /\ (forall a, array_wf 20 a -> ~ In a (map fst ts) -> template_at e a None g = Err GNotFound)
    /\ (forall a l new, In (a, l) ts -> sections_wf new ->
          (forall s, In s new -> is_mandatory s = false) ->
          exists g' l', template_set_noncore e a new g = (Ok tt, g') /\ template_at e a None g' = Ok l'
            /\ Permutation l' (filter is_mandatory l ++ new))
    /\ (forall a l new, In (a, l) ts -> sections_wf new ->
          (forall s, In s new -> is_mandatory s = true) ->
          exists g' l', template_set_core e a new g = (Ok tt, g') /\ template_at e a None g' = Ok l'
            /\ Permutation l' (new ++ filter (fun s => negb (is_mandatory s)) l)).
Proof.
  intros e en ts HI HC HW. destruct (genesis_starts e ts HI HC HW) as (g & fp & E & HP & L & S & A).
  exists g, fp. split; [exact E|]. split.
  { eapply rr_new; [|exact E]. destruct HW as [_ F]. eapply Forall_impl; [|exact F]. cbn beta. tauto. }
  split; [exact L|].
  assert (AT : forall x, gs_layer_param x = None -> at_layer None x = x) by (intros [] ?; cbn in *; subst; reflexivity).
  assert (ONE : forall a l, In (a, l) ts -> array_wf 20 a /\ exists c t d r, remove_noncore l = Some ([c; t; d], r)
            /\ section_kind_of c = KCode /\ section_kind_of t = KCtors /\ section_kind_of d = KData
            /\ Permutation l (c :: t :: d :: r) /\ stored e g a [c; t; d] r /\ NoDup (map section_kind_of ([c; t; d] ++ r))
            /\ (forall s, In s r -> is_mandatory s = false)).
  { intros a l Hin. destruct (S a l Hin) as (x & y & R & ST). destruct HW as [_ F]. rewrite Forall_forall in F.
    destruct (F _ Hin) as (Ha & Hl & Hm). cbn [fst snd] in *. split; auto.
    destruct (remove_noncore_some l (proj1 Hl) Hm) as (c & t & d & r & R' & K1 & K2 & K3 & P).
    rewrite R in R'. injection R' as -> ->. exists c, t, d, r.
    assert (ND : NoDup (map section_kind_of ([c; t; d] ++ r))).
    { eapply Permutation_NoDup; [apply Permutation_map, P|]. apply Hl. }
    split; [auto|]. split; [auto|]. split; [auto|]. split; [auto|]. split; [auto|]. split; [auto|]. split; [auto|].
    intros s Hs. cbn [app map] in ND. rewrite K1, K2, K3 in ND.
    inversion ND as [|? ? N1 ND1]; subst. inversion ND1 as [|? ? N2 ND2]; subst. inversion ND2 as [|? ? N3 ND3]; subst.
    apply (in_map section_kind_of) in Hs. unfold is_mandatory. destruct (section_kind_of s); auto; exfalso.
    - apply N1. right. now right.
    - now apply N3.
    - apply N2. now right. }
  split; [|split; [|split]].
  - intros a l Hin. destruct (ONE a l Hin) as (Ha & c & t & d & r & R & _ & _ & _ & P & ST & ND & _).
    unfold template_at. rewrite AT by auto. rewrite (stored_sections e g a [c; t; d] r HP ST). cbn [fst].
    rewrite merge_disjoint by auto. eauto.
  - intros a Ha Hn. unfold template_at. rewrite AT by auto. unfold template_sections, gbind.
    now rewrite (read_now_none e _ _ _ HP (A a Ha Hn)).
  - intros a l new Hin Wn Hn. destruct (ONE a l Hin) as (Ha & c & t & d & r & R & K1 & K2 & K3 & P & ST & ND & NR).
    destruct (set_noncore_stored e a _ _ new g HC Ha Wn ST) as (g' & E' & P' & ST'). rewrite HP in P'.
    exists g', ([c; t; d] ++ new). split; [exact E'|]. split.
    + unfold template_at. rewrite AT by auto. rewrite (stored_sections e g' a _ _ P' ST'). cbn [fst]. f_equal.
      apply merge_disjoint. rewrite map_app in ND |- *. apply NoDup_app_two; [now apply NoDup_app_l in ND|apply Wn|].
      cbn [map]. rewrite K1, K2, K3. intros k H1 H2. apply in_map_iff in H2. destruct H2 as (s & <- & H2).
      specialize (Hn s H2). unfold is_mandatory in Hn.
      destruct H1 as [H1|[H1|[H1|[]]]]; rewrite <- H1 in Hn; discriminate Hn.
    + apply Permutation_app_tail. rewrite (filter_perm _ _ _ P). change (c :: t :: d :: r) with ([c; t; d] ++ r).
      rewrite filter_app, (filter_no _ r) by exact NR. rewrite app_nil_r, filter_all; [reflexivity|].
      unfold is_mandatory. intros s [<-|[<-|[<-|[]]]]; [rewrite K1|rewrite K2|rewrite K3]; reflexivity.
  - intros a l new Hin Wn Hn. destruct (ONE a l Hin) as (Ha & c & t & d & r & R & K1 & K2 & K3 & P & ST & ND & NR).
    destruct (set_core_stored e a _ _ new g HC Ha Wn ST) as (g' & E' & P' & ST'). rewrite HP in P'.
    exists g', (new ++ r). split; [exact E'|]. split.
    + unfold template_at. rewrite AT by auto. rewrite (stored_sections e g' a _ _ P' ST'). cbn [fst]. f_equal.
      apply merge_disjoint. rewrite map_app in ND |- *. apply NoDup_app_two; [apply Wn|now apply NoDup_app_r in ND|].
      intros k H1 H2. apply in_map_iff in H1. destruct H1 as (s & <- & H1). apply in_map_iff in H2. destruct H2 as (s' & E2 & H2).
      specialize (Hn s H1). specialize (NR s' H2). unfold is_mandatory in *. rewrite E2 in NR. congruence.
    + apply Permutation_app_head. rewrite (filter_perm _ _ _ P). change (c :: t :: d :: r) with ([c; t; d] ++ r).
      rewrite filter_app, (filter_all _ r) by (intros s Hs; now rewrite NR). rewrite filter_no; [reflexivity|].
      unfold is_mandatory. intros s [<-|[<-|[<-|[]]]]; [rewrite K1|rewrite K2|rewrite K3]; reflexivity.
Qed.
Print Assumptions C108_genesis_starts.

(** What the client reads of an account and of a template, now or in a layer. *)
Lemma reads_same_at e g g' l : 
  (forall k, get_by_hash (gs_storage g') k (option_map as_i64 l) = get_by_hash (gs_storage g) k None) ->
  forall a, template_at e a l g' = template_at e a None g
            /\ fields_of e a (at_layer l g') = fields_of e a (at_layer None g).
Proof.
  intros H a.
  assert (D : forall A (d : decoder A) k, fst (read_and_decode e d k (at_layer l g')) = fst (read_and_decode e d k (at_layer None g))).
  { intros A d k. unfold read_and_decode, gbind, gs_get, get. cbn [gs_layer_param at_layer option_map gs_storage]. rewrite H.
    destruct (get_by_hash (gs_storage g) (env_hash e k) None) as [[bs|]|?|]; cbn [lift]; try reflexivity.
    destruct (d bs) as [[? ?]|?|]; reflexivity. }
  split.
  - unfold template_at, template_sections, gbind.
    pose proof (D _ (dec_sections None) (key_core a)) as E1. pose proof (D _ (dec_sections None) (key_noncore a)) as E2.
    pose proof (reads_decode e (dec_sections None) (key_core a) (at_layer None g)) as R1.
    pose proof (reads_decode e (dec_sections None) (key_core a) (at_layer l g')) as R2.
    destruct (read_and_decode e (dec_sections None) (key_core a) (at_layer None g)) as [[c|?|] x1],
      (read_and_decode e (dec_sections None) (key_core a) (at_layer l g')) as [[c'|?|] x2];
      cbn [fst snd] in *; try congruence. subst x1 x2. injection E1 as ->.
    destruct (read_and_decode e (dec_sections None) (key_noncore a) (at_layer None g)) as [[d|?|] x1],
      (read_and_decode e (dec_sections None) (key_noncore a) (at_layer l g')) as [[d'|?|] x2];
      cbn [fst snd gret] in *; try congruence.
  - unfold fields_of, account_name, account_template, account_balance, account_counter.
    rewrite !(bind_read_same _ _ (at_layer None g) (at_layer l g')) by apply D. reflexivity.
Qed.

(** Genesis is applied once: on any later state it does nothing, whatever templates it names;
    and the genesis layer, which the layer parameter [2^64 - 1] selects, shows the start for ever. *)
Theorem C108_genesis_kept :
  forall e ts g ops,
  iterates e -> gs_new e empty_db ts = Some g ->
  (forall ts', init_genesis e ts' (run_gops e ops g) = (Ok tt, run_gops e ops g))
  /\ forall a, template_at e a (Some (2 ^ 64 - 1)) (run_gops e ops g) = template_at e a None g
               /\ fields_of e a (at_layer (Some (2 ^ 64 - 1)) (run_gops e ops g)) = fields_of e a (at_layer None g).
Proof.
  intros e ts g ops HI HG. destruct (new_settled e ts g HI HG) as [S N].
  destruct (emits_gops e ops g (-1)) as (sops & HB & HS).
  { apply Forall_forall. intros [] _; auto. lia. }
  split.
  - intros ts'. unfold init_genesis. pose proof (settled_genesis e (gs_storage (run_gops e ops g)) HI) as Q.
    rewrite HS in Q. specialize (Q (settled_more e _ _ S HB)). rewrite <- HS in Q.
    destruct (genesis_fingerprint (gs_storage (run_gops e ops g))); [reflexivity|now elim Q].
  - apply reads_same_at. intros k. change (option_map as_i64 (Some (2 ^ 64 - 1))) with (Some (-1)%Z).
    rewrite HS, (settled_get e _ _ _ HI S HB). apply N.
Qed.
Print Assumptions C108_genesis_kept.

(** The genesis of the main network: it starts on a new database, in a state every theorem
    about reachable states covers; the coin transfer template is there, and accounts of it can
    be created.  It has no constructor, so no one can ever spawn it while it stays so. *)
Theorem C108_mainnet :
  forall e en wasm,
  iterates e -> collision_free e -> hash_wf e -> engine_wf en -> bytes_ok wasm -> nlen wasm <= 4294967000 ->
  exists g, gs_new e empty_db (mainnet e wasm) = Some g /\ rt_reachable e en g []
    /\ template_at e (firstn 20 (env_hash e wasm)) None g
       = Ok [SCode (mkCode 0 wasm 0 Fixed); SCtors []; SData [mkLayout (Some 0) []]]
    /\ (forall a b k, array_wf 20 a -> uint_wf 64 b -> uint_wf 128 k ->
          exists x g', account_create e a [] (firstn 20 (env_hash e wasm)) b k g = (Ok x, g')
            /\ get_account e a g' = (Ok (Some (b, k, firstn 20 (env_hash e wasm))), g'))
    /\ (forall ev m c sp, decoded dec_spawn m = Some sp -> sp_template sp = firstn 20 (env_hash e wasm) ->
          spawn e en ev m c g = (Some (spawn_from_err (FuncNotCtor (sp_template sp) (sp_ctor sp)) []), c, g)).
Proof.
  intros e en wasm HI HC HH HE Hb Hn.
  assert (W : sections_wf (sct_canonical wasm)) by (apply sct_canonical_wf; auto; lia).
  assert (Ha : array_wf 20 (firstn 20 (env_hash e wasm))).
  { now apply addr_wf. }
  assert (GW : genesis_wf [(firstn 20 (env_hash e wasm), sct_canonical wasm)]).
  { split; [repeat constructor; auto|]. constructor; [|constructor]. cbn [fst snd]. split; auto. split; auto.
    intros k [<-|[<-|[<-|[]]]]; cbn; auto. }
  destruct (genesis_starts e _ HI HC GW) as (g & fp & E & HP & L & S & A).
  assert (R : rt_reachable e en g []).
  { eapply rr_new; [|exact E]. constructor; [now split|constructor]. }
  exists g. split; [now rewrite mainnet_canonical|]. split; auto.
  destruct (S _ _ (or_introl eq_refl)) as (x & y & Q & ST). rewrite sct_split_canonical in Q. injection Q as <- <-.
  pose proof (stored_sections e g _ _ _ HP ST) as TS. cbn [merge_sections fold_left] in TS.
  split; [unfold template_at; destruct g as [s p]; cbn [gs_layer_param at_layer gs_storage] in *; subst p; exact (f_equal fst TS)|].
  split.
  - intros a b k H1 H2 H3.
    assert (HL : live e g) by (eapply rt_live; eauto).
    destruct (write_account_effect e a [] (firstn 20 (env_hash e wasm)) b k g HC (live_typed e g HI HC HL)) as (g' & WA & _ & _ & _); auto.
    { split; [split; [discriminate|constructor]|reflexivity]. }
    eassert (AC : account_create e a [] (firstn 20 (env_hash e wasm)) b k g = (Ok _, g')).
    { unfold account_create, template_layout, gbind. rewrite TS. cbn [gret gsome]. 
      cbn -[write_account firstn]. rewrite WA. reflexivity. }
    eexists. exists g'. split; [exact AC|]. eapply (C81_created e en g [] a [] _ b k); eauto.
    cbn [rop_wf]. split; auto. split; [|auto]. split; [split; [discriminate|constructor]|reflexivity].
  - intros ev m c sp D T. eapply (spawn_not_ctor e en ev m c g sp); [exact D|rewrite T, TS; reflexivity|reflexivity].
Qed.
Print Assumptions C108_mainnet.

(** The same for the library: what it answers when it serves the main network is what it
    answers in a world every theorem about the library covers. *)
Theorem C108_library :
  forall e en parse wasm,
  iterates e -> collision_free e -> hash_wf e -> engine_wf en -> bytes_ok wasm -> nlen wasm <= 4294967000 ->
  exists w, world_wf w /\ w_env w = e /\ w_engine w = en /\ w_sct w = firstn 20 (env_hash e wasm)
    /\ forall ops lb, capi_run (mkWorld e en parse (mainnet e wasm) (fst (sct e wasm))) ops lb = capi_run w ops lb.
Proof.
  intros e en parse wasm HI HC HH HE Hb Hn. pose proof (addr_wf e wasm HH) as Ha.
  exists (mkWorld e en parse [(firstn 20 (env_hash e wasm), sct_canonical wasm)] (firstn 20 (env_hash e wasm))).
  split.
  { split; [exact HI|]. split; [exact HC|]. split; [exact HH|]. split; [exact HE|]. split; [|exact Ha]. constructor; [|constructor]. split; [exact Ha|].
    apply sct_canonical_wf; auto. lia. }
  split; [reflexivity|]. split; [reflexivity|]. split; [reflexivity|].
  intros ops. induction ops as [|o ops IH]; intros lb; [reflexivity|]. cbn [capi_run].
  match goal with |- context [capi_step ?w o lb] => assert (E : capi_step w o lb
    = capi_step (mkWorld e en parse [(firstn 20 (env_hash e wasm), sct_canonical wasm)] (firstn 20 (env_hash e wasm))) o lb) end.
  { destruct o; reflexivity. }
  rewrite E. destruct (capi_step _ o lb) as [a lb1]. now rewrite IH.
Qed.
Print Assumptions C108_library.

(** The hypotheses hold of the worlds of the other examples, with a wasm of any content. *)
Example C108_satisfiable :
  iterates rx_env /\ collision_free rx_env /\ hash_wf rx_env /\ engine_wf rx_engine /\ bytes_ok (rx_code 3)
  /\ nlen (rx_code 3) <= 4294967000
  /\ genesis_wf [(rx_taddr 1, rx_sections 1); (rx_taddr 2, insert_section (SHeader tx_header) (rx_sections 2))]
  /\ (exists g, gs_new rx_env empty_db (mainnet rx_env (rx_code 3)) = Some g
        /\ exists fp, last_layer (gs_storage (run_gops rx_env [GStub rx_b [] 5 0; GCheckpoint; GCommit] g)) = Ok (0, fp)%Z)
  /\ (exists m sp, build_spawn (rx_taddr 3) [] [97] [] = Some m /\ decoded dec_spawn m = Some sp
        /\ sp_template sp = firstn 20 (env_hash rx_env (rx_code 3))).
Proof.
  split; [apply rx_iterates|]. split; [apply rx_collision_free|]. split; [apply rx_hash_wf|]. split; [apply rx_engine_wf|].
  split; [unfold rx_code; repeat (constructor; [reflexivity|]); cbn; repeat (constructor; [reflexivity|]); constructor|].
  split; [vm_compute; discriminate|]. split; [|split].
  - assert (L : forall n, n < 256 -> sections_wf (rx_sections n)).
    { intros n Hn. pose proof fx_sections_wf as [_ F]. split; [repeat constructor; cbn; intuition discriminate|].
      inversion F as [|? ? _ F']; subst. constructor; [|exact F']. split; [|reflexivity].
      split; [reflexivity|]. split; [|split; reflexivity]. cbn [cs_code]. unfold rx_code.
      repeat (constructor; [first [assumption|reflexivity]|]); cbn; repeat (constructor; [reflexivity|]); constructor. }
    split; [repeat constructor; cbn; [intros [H|[]]; discriminate H|tauto]|].
    assert (A : forall n, n < 256 -> array_wf 20 (rx_taddr n)).
    { intros n Hn. split; [reflexivity|]. unfold rx_taddr, rx_code. cbn [firstn app repeat].
      repeat (constructor; [first [assumption|reflexivity]|]); constructor. }
    constructor; [|constructor; [|constructor]]; cbn [fst snd]; (split; [apply A; reflexivity|]).
    + split; [apply L; reflexivity|]. intros k [<-|[<-|[<-|[]]]]; cbn; auto.
    + split; [|intros k [<-|[<-|[<-|[]]]]; cbn; auto].
      destruct (L 2 eq_refl) as [N F]. split; [cbn; repeat constructor; cbn; intuition discriminate|].
      change (insert_section (SHeader tx_header) (rx_sections 2)) with (rx_sections 2 ++ [SHeader tx_header]).
      apply Forall_app. split; [exact F|]. constructor; [|constructor]. split; [|reflexivity].
      split; [reflexivity|]. split; [split; [split; [discriminate|repeat constructor]|reflexivity]|].
      split; [split; [discriminate|constructor]|reflexivity].
  - eexists. split; [vm_compute; reflexivity|]. eexists. vm_compute. reflexivity.
  - do 2 eexists. split; [vm_compute; reflexivity|]. split; [vm_compute; reflexivity|]. vm_compute. reflexivity.
Qed.

(** A code section counts as executable exactly if the lowest bit of its flags is set. *)
Theorem C107_executable :
  forall c, is_exec c = N.testbit (cs_flags c) 0.
Proof.
  intros c. unfold is_exec, exec_flags. destruct (N.testbit (cs_flags c) 0) eqn:T.
  - destruct (N.eqb_spec (N.land (cs_flags c) 1) 0) as [E|]; [|reflexivity]. exfalso.
    assert (K : N.testbit (N.land (cs_flags c) 1) 0 = false) by now rewrite E. rewrite N.land_spec, T in K. discriminate K.
  - destruct (N.eqb_spec (N.land (cs_flags c) 1) 0) as [|E]; [reflexivity|]. elim E. apply N.bits_inj. intros n. rewrite N.land_spec, N.bits_0.
    destruct n as [|p]; [now rewrite T|]. destruct (N.testbit 1 (N.pos p)) eqn:B; [|apply andb_false_r]. destruct p; discriminate B.
Qed.
Print Assumptions C107_executable.
Example C107_executable_satisfiable :
  is_exec (mkCode 0 [1] 3 Fixed) = true /\ is_exec (mkCode 0 [1] 2 Fixed) = false.
Proof. split; reflexivity. Qed.

(** The deployer of genesis templates has the address of twenty zero bytes. *)
Theorem C108_deployer :
  array_wf 20 genesis_templates_deployer_addr /\ forall i, (i < 20)%nat -> nth_error genesis_templates_deployer_addr i = Some 0.
Proof.
  split; [split; [reflexivity|apply bytes_okb_ok; reflexivity]|]. intros i L. unfold genesis_templates_deployer_addr.
  do 20 (destruct i as [|i]; [reflexivity|]). lia.
Qed.
Print Assumptions C108_deployer.
