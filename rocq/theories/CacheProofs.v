(** The price cache does not influence spawning. *)
From Coq Require Import List NArith ZArith Bool Lia Permutation.
From Coq Require Import ZifyBool ZifyNat ZifyN.
From Verif Require Import Base CodecModel CodecSpec CodecProofs ReceiptModel ReceiptProofs LayoutModel LayoutSpec.
From Verif Require Import SectionModel SectionSpec SectionProofs SectionCanon.
From Verif Require Import StorageModel StorageSpec StorageProofs GlobalModel GlobalSpec GlobalProofs.
From Verif Require Import RuntimeModel RuntimeSpec RuntimeProofs ObserveSpec.
Import ListNotations.
Open Scope N_scope.

Section cache.
Context (e : env) (en : engine) (known : bytes -> Prop).
Context (HI : iterates e) (HC : collision_free e) (HH : hash_wf e) (HE : engine_wf en).

Definition coded_sections (a : bytes) (l : sections) : Prop :=
  forall c, In (SCode c) l -> known (cs_code c) /\ template_addr e (cs_code c) = a.
Definition coded (a v : bytes) : Prop := forall l, decoded (dec_sections None) v = Some l -> coded_sections a l.
Definition template_key (a : bytes) (t : tkey) : Prop := array_wf 20 a /\ (t = TCore a \/ t = TNon a).

Lemma template_key_wf a t : template_key a t -> tkey_wf t.
Proof. intros [H [->| ->]]; now split. Qed.

(** Templates sit at the address of their code, now and in every stored layer. *)
Record addressed (g : gstate) : Prop := mkAddressed {
  ad_now : forall a t v, template_key a t -> cur e g (key_of t) = Some v -> coded a v;
  ad_rows : Forall (fun r => forall a t, template_key a t -> vr_key r = env_hash e (key_of t) -> coded a (vr_value r))
              (db_values (st_db (gs_storage g)))
}.

Lemma addressed_only P g g' : only e P g g' -> (forall a t, template_key a t -> ~ P t) -> addressed g -> addressed g'.
Proof.
  intros O HP [A B]. split.
  - intros a t v Ht. rewrite (on_cur _ _ _ _ O) by (eauto using template_key_wf). eauto.
  - now rewrite (on_db _ _ _ _ O).
Qed.
Lemma addressed_moves B V g g' : moves e B V g g' -> addressed g -> addressed g'.
Proof.
  intros [O _]. eapply addressed_only; [exact O|]. intros a t [_ [->| ->]]; cbn; auto.
Qed.

(** Reading current values out of rows. *)
Lemma addressed_of_rows s p : st_dirty s = [] -> st_changes s = [] ->
  Forall (fun r => forall a t, template_key a t -> vr_key r = env_hash e (key_of t) -> coded a (vr_value r)) (db_values (st_db s)) ->
  addressed (mkGstate s p).
Proof.
  intros D C F. split; [|exact F]. intros a t v Ht. unfold cur, get. cbn [gs_storage].
  destruct (get_by_hash s (env_hash e (key_of t)) None) as [[w|]|?|] eqn:E; try discriminate. intros [= ->].
  refine (get_all (fun k v => forall a t, template_key a t -> k = env_hash e (key_of t) -> coded a v) s _ None v _ E a t Ht eq_refl).
  split; [rewrite D; constructor|]. split; [rewrite C; constructor|exact F].
Qed.

Lemma addressed_commit g : live e g -> addressed g -> addressed (snd (gs_commit e g)).
Proof.
  intros [HR _] [A B]. destruct (reachable_R e _ HI (gs_reachable_storage e g HR)) as [v HV].
  assert (G : snd (gs_commit e g) = mkGstate (snd (commit e (gs_storage g))) (gs_layer_param g)).
  { unfold gs_commit, gs_commit_raw, gbind. destruct (commit e (gs_storage g)) as [[[id fp]|er|] s]; cbn; auto.
    now destruct (layer_of id). }
  rewrite G. clear G. unfold commit. set (s := gs_storage g) in *.
  destruct (st_dirty s) as [|x d] eqn:ED.
  2:{ split; [|exact B]. intros a t w Ht Hw. exact (A a t w Ht Hw). }
  assert (F2 : Forall (fun kv => forall a t, template_key a t -> fst kv = env_hash e (key_of t) -> coded a (snd kv)) (st_changes s)).
  { apply Forall_forall. intros [k w] Hin a t Ht Hk. cbn [fst snd] in *. apply (A a t w Ht). unfold cur, get, get_by_hash.
    fold s. rewrite ED. cbn [ch_get]. rewrite <- Hk. apply (ch_get_in _ _ _ (R_changes_nd _ _ HV)) in Hin. now rewrite Hin. }
  destruct (layer_fingerprint _ _ _) as [prev| |]; [|now apply addressed_of_rows..].
  unfold insert_layer. destruct (existsb _ _); [now apply addressed_of_rows|].
  destruct (insert_values _ _ _) as [d2| |] eqn:EV; [|now apply addressed_of_rows..].
  apply addressed_of_rows; auto. cbn.
  refine (insert_values_all (fun k v => forall a t, template_key a t -> k = env_hash e (key_of t) -> coded a v) _ _ _ _ _ _ EV); [|exact B].
  rewrite Forall_forall in *. intros y Hy. apply F2. eapply Permutation_in; [apply HI|exact Hy].
Qed.

Lemma addressed_checkpoint g : live e g -> addressed g -> addressed (snd (gs_checkpoint e g)).
Proof.
  intros HL [A B]. destruct (checkpoint_now e g HI HL) as (_ & (_ & _ & S) & _). split.
  - intros a t v Ht. rewrite S. eauto.
  - cbn [gs_checkpoint snd gs_storage]. now rewrite checkpoint_eq.
Qed.

Lemma addressed_rewind l g : addressed g -> addressed (snd (gs_rewind l g)).
Proof.
  intros [A B]. unfold gs_rewind. destruct (l <? 2 ^ 63); [|now split].
  unfold rewind. destruct (_ <? _)%Z; [|split; [exact A|exact B]].
  destruct (st_dirty (gs_storage g)) eqn:ED; [|split; [exact A|exact B]].
  cbn [snd]. apply addressed_of_rows; auto. cbn. rewrite Forall_forall in *. intros x Hx. apply filter_In in Hx. now apply B.
Qed.

Lemma outcome_addressed mem logs f g r g' : live e g -> addressed g ->
  outcome_to_receipt e mem logs f g = (r, g') -> addressed g'.
Proof.
  intros HL HA. unfold outcome_to_receipt, sbind at 1.
  destruct (take_returndata f mem) as [data|]; cbn [ssome]; [|intros [= <- <-]; auto]. unfold sret at 1.
  unfold sbind at 1, commit_changes, sbind at 1.
  destruct (can_write f); cbn [sassert]; [|intros [= <- <-]; auto]. unfold sret at 1.
  destruct (checkpoint_now e g HI HL) as (HL1 & S1 & E1 & U1). pose proof (addressed_checkpoint g HL HA) as HA1.
  unfold sbind at 1, sunwrap at 1. destruct (gs_checkpoint e g) as [o g1]. cbn [fst snd] in *. subst o.
  pose proof (addressed_commit g1 HL1 HA1) as HA2.
  unfold sbind at 1, sunwrap. destruct (gs_commit e g1) as [[[l fp]|er|] g2]; cbn [fst snd] in *; intros [= <- <-]; auto.
Qed.

Lemma exec_call_addressed cl g : live e g -> array_wf 20 (cl_target cl) -> bytes_ok (cl_input cl) -> addressed g ->
  addressed (snd (exec_call e en cl g)).
Proof.
  intros HL Ht Hin HA. unfold exec_call. destruct (exec e en cl g) as [r g'] eqn:E.
  assert (H : addressed g'); [|now destruct r as [?|[? ?]|]].
  unfold exec, load_template in E.
  unfold sbind at 1 in E.
  destruct (@unwrap_read failure _ (account_load e (cl_target cl)) g (reads_load e _)) as [(a1 & E1 & R1)|[E1 R1]]; rewrite R1 in E.
  2:{ now injection E as _ <-. }
  unfold sbind at 1 in E.
  destruct (@unwrap_read failure _ (account_template e (cl_target cl)) g) as [(t & E2 & R2)|[E2 R2]];
    [apply reads_bind; [apply reads_decode|intros; apply reads_ret]|rewrite R2 in E|rewrite R2 in E].
  2:{ now injection E as _ <-. }
  unfold sbind at 1 in E.
  destruct (@unwrap_read failure _ (template_sections e t) g (reads_sections e _)) as [(l & E3 & R3)|[E3 R3]]; rewrite R3 in E.
  2:{ now injection E as _ <-. }
  unfold sbind at 1 in E. rewrite R1 in E. unfold sbind at 1 in E.
  set (f := env_new a1 (cl_template cl) (cl_mode cl)) in *.
  destruct (run e en cl l f g) as [r1 g1] eqn:Er. pose proof (load_addr _ _ _ _ E1) as Ea.
  apply run_cases in Er; auto; [|cbn; congruence]. destruct Er as [HL1 Er].
  destruct r1 as [[[mem logs] f1]|er|].
  - destruct Er as (_ & _ & M). apply (outcome_addressed _ _ _ _ _ _ HL1 (addressed_moves _ _ _ _ M HA) E).
  - injection E as _ <-. now apply (addressed_moves _ _ _ _ Er).
  - injection E as _ <-. now apply (addressed_moves _ _ _ _ Er).
Qed.

Lemma transact_addressed tx m name input g : live e g -> array_wf 20 (tx_target tx) -> bytes_ok input -> addressed g ->
  addressed (snd (transact e en tx m name input g)).
Proof.
  intros HL Ht Hin HA. unfold transact.
  destruct (build_call_reads e tx m name input g) as [(cl & -> & _ & _ & Et & Ei & _)| ->]; [|exact HA].
  apply exec_call_addressed; auto; congruence.
Qed.

Lemma create_addressed addr name taddr b c g : live e g -> addressed g ->
  array_wf 20 addr -> string_wf 255 name -> array_wf 20 taddr -> uint_wf 64 b -> uint_wf 128 c ->
  addressed (snd (account_create e addr name taddr b c g)).
Proof.
  intros HL HA Ha Hn Ht Hb Hc. pose proof (live_typed e g HI HC HL) as HT.
  unfold account_create, gbind. pose proof (reads_layout e taddr g) as RL.
  destruct (template_layout e taddr g) as [[lay|?|] g0]; cbn [snd] in *; subst; auto.
  destruct (write_account_effect e addr name taddr b c g) as (g1 & -> & _ & O & _); auto.
  cbn. eapply addressed_only; [exact O| |exact HA]. intros a t [_ [->| ->]] [H|H]; discriminate.
Qed.

(** Storing a template under the address of its code. *)
Lemma write_template_key a t l g : template_key a t -> sections_wf l -> coded_sections a l -> addressed g ->
  addressed (snd (encode_and_write e enc_sections l (key_of t) g)).
Proof.
  intros Ht Hw Hl HA. destruct (enc_sections l) as [bs|] eqn:Ee.
  2:{ unfold encode_and_write, gbind. rewrite Ee. exact HA. }
  destruct (write_effect e t enc_sections l bs g HC (template_key_wf _ _ Ht) Ee) as (g1 & -> & O & Hc). cbn [snd].
  destruct HA as [A B]. split; [|now rewrite (on_db _ _ _ _ O)].
  intros b u v Hu.
  assert (D : u = t \/ u <> t) by (repeat decide equality).
  destruct D as [->|Hne].
  - rewrite Hc. intros [= <-]. assert (b = a) by (destruct Ht as [_ [->| ->]], Hu as [_ [H|H]]; congruence). subst b.
    intros l'. unfold decoded. rewrite (sections_dec l bs Hw Ee). now intros [= <-].
  - rewrite (on_cur _ _ _ _ O); eauto using template_key_wf.
Qed.
Lemma template_create_addressed a l1 l2 g : array_wf 20 a -> sections_wf l1 -> sections_wf l2 ->
  coded_sections a l1 -> coded_sections a l2 -> addressed g -> addressed (snd (template_create e a l1 l2 g)).
Proof.
  intros Ha W1 W2 C1 C2 HA. unfold template_create, gbind.
  pose proof (write_template_key a (TCore a) l1 g (conj Ha (or_introl eq_refl)) W1 C1 HA) as H. cbn [key_of] in H.
  destruct (encode_and_write e enc_sections l1 (key_core a) g) as [[[]|?|] g1]; cbn [snd] in *; auto.
  exact (write_template_key a (TNon a) l2 g1 (conj Ha (or_intror eq_refl)) W2 C2 H).
Qed.

Lemma code_of_in l c : code_of l = Some c -> In (SCode c) l.
Proof.
  unfold code_of, get_section. destruct (find _ l) as [[]|] eqn:E; try discriminate. intros [= <-]. now apply find_some in E.
Qed.
Lemma code_unique l c c' : NoDup (map section_kind_of l) -> In (SCode c) l -> In (SCode c') l -> c = c'.
Proof.
  induction l as [|x l IH]; [intros _ []|]. cbn [map]. intros H. inversion H as [|? ? N ND]; subst.
  intros [->|H1] [E|H2]; auto.
  - congruence.
  - destruct N. apply in_map_iff. now exists (SCode c').
  - subst x. destruct N. apply in_map_iff. now exists (SCode c).
Qed.

Lemma deploy_addressed ev m g : live e g -> bytes_ok m ->
  (forall l, decoded (dec_sections None) m = Some l -> code_in known l) -> addressed g -> addressed (snd (deploy e ev m g)).
Proof.
  intros HL Hm HD HA. unfold deploy.
  destruct (decoded (dec_sections None) m) as [l|] eqn:Ed; [|exact HA].
  destruct (gas_lt _ _); [exact HA|]. destruct (code_of l) as [c|] eqn:Ec; [|exact HA].
  assert (H : addressed (snd (template_create e (template_addr e (cs_code c)) l l g))).
  { destruct (enc_sections l) as [bs|] eqn:Ee.
    2:{ unfold template_create, gbind, encode_and_write, gbind. rewrite Ee. exact HA. }
    assert (Hw : sections_wf l).
    { unfold decoded in Ed. destruct (dec_sections None m) as [[l' rest]| |] eqn:E; try discriminate. injection Ed as ->.
      eapply sections_accepted; eauto. }
    assert (CS : coded_sections (template_addr e (cs_code c)) l).
    { intros c' Hc'. split; [now apply (HD l)|]. f_equal. f_equal. apply (code_unique l); auto; [apply Hw|now apply code_of_in]. }
    apply template_create_addressed; auto. now apply addr_wf. }
  destruct (template_create _ _ _ _ g) as [[[]|?|] g1]; exact H.
Qed.

Lemma genesis_addressed ts g : Forall (fun t => array_wf 20 (fst t) /\ sections_wf (snd t) /\ code_in known (snd t)
     /\ forall cs, In (SCode cs) (snd t) -> fst t = template_addr e (cs_code cs)) ts ->
  gs_new e empty_db ts = Some g -> addressed g.
Proof.
  intros Hts. unfold gs_new. change (open_db empty_db) with (Ok (A := storage) (E := storage_error) fresh). cbv beta iota.
  unfold init_genesis. replace (genesis_fingerprint (gs_storage (mkGstate fresh None))) with (@None bytes) by reflexivity.
  set (P := fun k v => forall a t, template_key a t -> k = env_hash e (key_of t) -> coded a v).
  assert (H0 : store_all P (gs_storage (mkGstate fresh None))) by (repeat split; constructor).
  assert (HW : forall a t l g, template_key a t -> sections_wf l -> coded_sections a l -> store_all P (gs_storage g) ->
            store_all P (gs_storage (snd (encode_and_write e enc_sections l (key_of t) g)))).
  { intros a t l g1 Ht Hw Hl HA. unfold encode_and_write, gbind. destruct (enc_sections l) as [bs|] eqn:Ee; [|exact HA].
    cbn. apply upsert_all; auto. intros b u Hu Heq.
    apply HC in Heq; [|apply tkey_storage; eauto using template_key_wf..]. apply key_of_inj in Heq; eauto using template_key_wf.
    assert (b = a) by (destruct Ht as [_ [->| ->]], Hu as [_ [H|H]]; congruence). subst b.
    intros l'. unfold decoded. rewrite (sections_dec l bs Hw Ee). now intros [= <-]. }
  assert (H1 : store_all P (gs_storage (snd (create_templates e ts (mkGstate fresh None))))).
  { generalize dependent (mkGstate fresh None). induction Hts as [|[addr l] ts (Ha & Hl & Hk & Hd) _ IH]; intros g0 H0; [exact H0|].
    cbn [fst snd] in *. cbn [create_templates]. unfold gbind at 1. destruct (remove_noncore l) as [[a b]|] eqn:E; cbn [gsome]; [|exact H0].
    unfold gret. unfold gbind at 1.
    apply remove_noncore_perm in E. apply (sections_wf_perm _ _ E) in Hl. apply sections_wf_app in Hl. destruct Hl as [Wa Wb].
    assert (CS : forall x, (forall c, In (SCode c) x -> In (SCode c) l) -> coded_sections addr x).
    { intros x Hx c Hc. split; [apply Hk; auto|]. symmetry. auto. }
    assert (T : store_all P (gs_storage (snd (template_create e addr a b g0)))).
    { unfold template_create, gbind.
      assert (T1 : store_all P (gs_storage (snd (encode_and_write e enc_sections a (key_of (TCore addr)) g0)))).
      { apply (HW addr); auto; [split; auto|]. apply CS. intros c Hc. eapply Permutation_in; [symmetry; exact E|]. apply in_or_app. auto. }
      cbn [key_of] in T1.
      destruct (encode_and_write e enc_sections a (key_core addr) g0) as [[[]|?|] g1]; cbn [snd] in *; auto.
      apply (HW addr (TNon addr)); auto; [split; auto|]. apply CS. intros c Hc. eapply Permutation_in; [symmetry; exact E|]. apply in_or_app. auto. }
    destruct (template_create e addr a b g0) as [[[]|?|] g1]; cbn [snd] in *; auto. }
  unfold gbind. destruct (create_templates e ts _) as [[[]|?|] g1]; cbn [snd] in H1; try discriminate.
  cbn [gs_checkpoint]. unfold gs_commit_raw. cbn [gs_storage].
  pose proof (commit_all P e _ HI (checkpoint_all P e _ HI H1)) as H2.
  assert (F : forall s p, store_all P s -> addressed (mkGstate s p)).
  { intros s p (A & B & C). split; [|exact C]. intros a t v Ht. unfold cur, get. cbn [gs_storage].
    destruct (get_by_hash s (env_hash e (key_of t)) None) as [[w|]|?|] eqn:E; try discriminate. intros [= ->].
    exact (get_all P s _ None v (conj A (conj B C)) E a t Ht eq_refl). }
  destruct (commit e _) as [[[id fp]|?|] s']; cbn [snd lift] in *; try discriminate.
  destruct (id =? -1)%Z; [|discriminate]. intros [= <-]. now apply F.
Qed.

(** What is priced is the code at that address. *)
Definition cache_ok (c : price_cache) : Prop :=
  Forall (fun tp => exists code, known code /\ fst tp = template_addr e code /\ en_prices en code = Some (snd tp)) c.

Lemma cache_get_ok t c p : cache_ok c -> cache_get t c = Some p ->
  exists code, known code /\ t = template_addr e code /\ en_prices en code = Some p.
Proof.
  induction 1 as [|[t' p'] c H _ IH]; cbn [cache_get]; [discriminate|].
  destruct (bytes_eqb t t') eqn:E; auto. apply bytes_eqb_spec in E. subst. intros [= <-]. exact H.
Qed.

Lemma sections_addressed a g l : array_wf 20 a -> gs_layer_param g = None -> addressed g ->
  fst (template_sections e a g) = Ok l -> coded_sections a l.
Proof.
  intros Ha HP [A _]. unfold template_sections, read_and_decode, gbind. rewrite HP. cbn [option_map].
  rewrite gs_get_now. destruct (cur e g (key_core a)) as [v1|] eqn:C1; [|discriminate].
  destruct (dec_sections None v1) as [[l1 r1]|?|] eqn:D1; try discriminate. cbn [gret].
  rewrite HP. cbn [option_map]. rewrite gs_get_now. destruct (cur e g (key_noncore a)) as [v2|] eqn:C2; [|discriminate].
  destruct (dec_sections None v2) as [[l2 r2]|?|] eqn:D2; try discriminate. cbn [gret fst]. intros [= <-].
  assert (K1 : coded_sections a l1).
  { apply (A a (TCore a) v1); [split; auto|exact C1|]. unfold decoded. now rewrite D1. }
  assert (K2 : coded_sections a l2).
  { apply (A a (TNon a) v2); [split; auto|exact C2|]. unfold decoded. now rewrite D2. }
  unfold merge_sections. clear -K1 K2. revert l1 K1. induction l2 as [|x l2 IH]; intros l1 K1; [exact K1|].
  cbn [fold_left]. apply IH; [intros c Hc; apply K2; now right|]. intros c Hc.
  assert (Hin : forall l, In (SCode c) (insert_section x l) -> SCode c = x \/ In (SCode c) l).
  { clear. induction l as [|y l IH]; cbn [insert_section In]; [intuition congruence|].
    destruct (kind_eqb _ _); cbn [In]; intuition. }
  destruct (Hin _ Hc) as [<-|H]; [apply K2; now left|auto].
Qed.

Context (HD : addresses_differ e known).

Lemma check_gas_cache a l name t c : coded_sections a l -> cache_ok c ->
  fst (check_gas_for_func en a l name t c) = fst (check_gas_for_func en a l name t [])
  /\ cache_ok (snd (check_gas_for_func en a l name t c)).
Proof.
  intros Hl Hc. unfold check_gas_for_func. destruct (tank_is_empty t); [now split|].
  destruct (code_of l) as [cs|] eqn:Ec; [|now split].
  destruct (en_exports en (cs_code cs)) as [ex|]; [|now split]. destruct (cs_gas_mode cs); [|now split].
  destruct (ex name) as [index|]; [|now split].
  destruct (Hl cs (code_of_in _ _ Ec)) as [Hk Ha]. unfold price_of. cbn [cache_get].
  destruct (cache_get a c) as [p|] eqn:Eg.
  - destruct (cache_get_ok a c p Hc Eg) as (code & K1 & K2 & K3).
    assert (code = cs_code cs) by (apply HD; auto; congruence). subst code. rewrite K3. now split.
  - destruct (en_prices en (cs_code cs)) as [p|] eqn:Ep; [|now split]. split; [reflexivity|].
    cbn [snd]. constructor; [|exact Hc]. exists (cs_code cs). cbn. auto.
Qed.

Lemma spawn_cache ev m c g : live e g -> addressed g -> cache_ok c -> bytes_ok m ->
  fst (fst (spawn e en ev m c g)) = fst (fst (spawn e en ev m [] g))
  /\ snd (spawn e en ev m c g) = snd (spawn e en ev m [] g)
  /\ cache_ok (snd (fst (spawn e en ev m c g))) /\ addressed (snd (spawn e en ev m c g)).
Proof.
  intros HL HA Hc Hm. pose proof HL as [_ HP]. unfold spawn.
  destruct (decoded dec_spawn m) as [sp|] eqn:Ed; [|cbn; auto].
  assert (Hsp : spawn_wf sp) by (eapply decoded_canon; eauto using spawn_canon). destruct Hsp as [S1 S2 S3 S4 S5].
  pose proof (reads_sections e (sp_template sp) g) as R1.
  destruct (template_sections e (sp_template sp) g) as [[l|?|] g0] eqn:El; cbn [snd] in R1; subst; try (cbn; now auto).
  assert (CS : coded_sections (sp_template sp) l) by (apply (sections_addressed _ g); auto; now rewrite El).
  pose proof (reads_exec_prefix sp l g) as R2.
  destruct (ensure_ctor _ _ _ g) as [[[]|[? ?]|] g0]; cbn [snd] in R2; subst; try (cbn; now auto).
  destruct (check_gas_cache (sp_template sp) l (sp_ctor sp) (check_gas_for_payload m (tank_new (env_gas_limit ev))) c CS Hc) as [K1 K2].
  destruct (check_gas_for_func _ _ _ _ _ c) as [t1 c1], (check_gas_for_func _ _ _ _ _ []) as [t2 c2]. cbn [fst snd] in K1, K2. subst t2.
  destruct t1 as [[n|]|]; try (cbn; now auto).
  set (new := account_addr e (sp_template sp)).
  assert (Hnew : array_wf 20 new) by now apply addr_wf.
  assert (HLc : live e (snd (account_create e new (sp_name sp) (sp_template sp) 0 0 g))) by (apply create_live; auto; reflexivity).
  assert (HAc : addressed (snd (account_create e new (sp_name sp) (sp_template sp) 0 0 g))) by (apply create_addressed; auto; reflexivity).
  destruct (account_create e new _ _ 0 0 g) as [[a|?|] g1]; cbn [snd] in *; try (cbn; now auto).
  unfold call_ctor. set (cl := mkCall _ _ _ _ _ _).
  pose proof (exec_call_addressed cl g1 HLc Hnew (proj2 S5) HAc) as HX.
  destruct (exec_call e en cl g1) as [[rc|] g2]; cbn [snd fst] in *; auto.
Qed.

Lemma rop_step o g c : live e g -> addressed g -> cache_ok c -> rop_wf o ->
  match o with TDeploy _ m => forall l, decoded (dec_sections None) m = Some l -> code_in known l | _ => True end ->
  addressed (fst (run_rop e en o (g, c))) /\ cache_ok (snd (run_rop e en o (g, c))).
Proof.
  intros HL HA Hc Ho Hk. destruct o; cbn [run_rop rop_wf fst snd] in *; try (split; [|exact Hc]).
  - now apply deploy_addressed.
  - destruct (spawn_cache ev message c g HL HA Hc Ho) as (_ & _ & K1 & K2).
    destruct (spawn e en ev message c g) as [[r c1] g1]. cbn [fst snd] in *. now split.
  - destruct (verify_pure e en message g) as [-> _]. exact HA.
  - unfold rt_call. destruct (decoded dec_transaction message) as [tx|] eqn:Ed; [|exact HA].
    assert (Hw : transaction_wf tx) by (eapply decoded_canon; eauto using transaction_canon).
    destruct Hw as [S1 S2 S3 S4 S5]. apply transact_addressed; auto. apply S5.
  - destruct Ho. destruct (transfer e src dst amount g) as [r g1] eqn:E. apply transfer_cases in E; auto.
    destruct E as (_ & M & _). exact (addressed_moves _ _ _ _ M HA).
  - destruct (increase_balance e addr amount g) as [r g1] eqn:E. apply increase_cases in E; auto.
    destruct E as (_ & M & _). exact (addressed_moves _ _ _ _ M HA).
  - destruct Ho as (? & ? & ? & ? & ?). now apply create_addressed.
  - unfold rt_commit. pose proof (addressed_commit g HL HA) as H. now destruct (gs_commit e g) as [[?|?|] ?].
  - unfold rt_rewind. pose proof (addressed_rewind l g HA) as H. now destruct (gs_rewind l g) as [[?|?|] ?].
Qed.

Lemma history_invariant ops g c : history e en known ops g c ->
  rt_reachable e en g c /\ live e g /\ addressed g /\ cache_ok c.
Proof.
  intros (ts & g0 & Hts & Hnew & Hops & Hk & E).
  assert (Hts' : Forall (fun t => array_wf 20 (fst t) /\ sections_wf (snd t)) ts).
  { eapply Forall_impl; [|exact Hts]. intros t (? & ? & _). auto. }
  assert (S0 : rt_reachable e en g0 [] /\ live e g0 /\ addressed g0 /\ cache_ok []).
  { split; [eapply rr_new; eauto|]. split; [eapply new_live; eauto|]. split; [eapply genesis_addressed; eauto|constructor]. }
  assert (G : forall (g0 : gstate) (c0 : price_cache),
    (g, c) = fold_left (fun s o => run_rop e en o s) ops (g0, c0) ->
    rt_reachable e en g0 c0 /\ live e g0 /\ addressed g0 /\ cache_ok c0 ->
    rt_reachable e en g c /\ live e g /\ addressed g /\ cache_ok c); [|exact (G g0 [] E S0)].
  clear g0 Hnew E S0. induction ops as [|o ops IH]; intros g0 c0 E S0.
  - cbn in E. injection E as -> ->. exact S0.
  - inversion Hops as [|? ? Ho Hops']; subst. inversion Hk as [|? ? Hko Hk']; subst. cbn [fold_left] in E.
    destruct S0 as (A1 & A2 & A3 & A4).
    pose proof (rop_step o g0 c0 A2 A3 A4 Ho Hko) as [B1 B2].
    destruct (run_rop e en o (g0, c0)) as [g1 c1] eqn:E1. cbn [fst snd] in B1, B2.
    apply (IH Hops' Hk' g1 c1 E). assert (RR : rt_reachable e en g1 c1) by (eapply rr_op; eauto).
    split; [exact RR|]. split; [eapply rt_live; eauto|]. exact (conj B1 B2).
Qed.
End cache.
