(** Proofs about the typed global state. *)
From Coq Require Import String.
From Coq Require Import List NArith ZArith Bool Lia Permutation.
From Coq Require Import ZifyBool ZifyNat ZifyN.
From Verif Require Import Base CodecModel CodecSpec CodecProofs ReceiptModel ReceiptProofs LayoutModel LayoutSpec LayoutProofs.
From Verif Require Import SectionModel SectionSpec SectionProofs.
From Verif Require Import StorageModel StorageSpec StorageProofs Text GlobalModel GlobalSpec.
Import ListNotations.
Open Scope N_scope.

(* ------------------------------------------------------------------------------------ *)
(** * Keys *)

Inductive tkey := TImm (a : bytes) | TMut (a : bytes) | TSeg (a : bytes) (n : N)
                | TCore (a : bytes) | TNon (a : bytes).
Definition key_of (t : tkey) : bytes :=
  match t with
  | TImm a => key_immutable a | TMut a => key_mutable a | TSeg a n => key_segment a n
  | TCore a => key_core a | TNon a => key_noncore a
  end.
Definition tkey_addr (t : tkey) : bytes :=
  match t with TImm a | TMut a | TSeg a _ | TCore a | TNon a => a end.
Definition tkey_wf (t : tkey) : Prop :=
  array_wf 20 (tkey_addr t) /\ match t with TSeg _ n => n <= u32_max | _ => True end.
Lemma tkey_storage t : tkey_wf t -> storage_key (key_of t).
Proof. intros [H1 H2]. destruct t; constructor; auto. Qed.

Definition key_prefix (t : tkey) : bytes :=
  match t with TImm _ | TMut _ | TSeg _ _ => txt "accounts:" | _ => txt "templates:" end.
Definition key_suffix (t : tkey) : bytes :=
  match t with
  | TImm _ => txt ":immutable" | TMut _ => txt ":mutable"
  | TSeg _ n => txt ":var_segments:" ++ decimal n
  | TCore _ => txt ":core" | TNon _ => txt ":noncore"
  end.
Lemma key_of_shape t : key_of t = key_prefix t ++ hex_upper (tkey_addr t) ++ key_suffix t.
Proof. destruct t; reflexivity. Qed.

Lemma app_inj_l {A} (a b c d : list A) : length a = length c -> a ++ b = c ++ d -> a = c /\ b = d.
Proof.
  revert c. induction a as [|x a IH]; intros [|y c] HL H; try discriminate; auto.
  cbn in *. injection H as -> H. destruct (IH c) as [-> ->]; auto.
Qed.

Lemma key_of_inj t u : tkey_wf t -> tkey_wf u -> key_of t = key_of u -> t = u.
Proof.
  intros [[Lt Bt] _] [[Lu Bu] _]. rewrite !key_of_shape. intros H.
  assert (HP : key_prefix t = key_prefix u).
  { destruct t, u; try reflexivity; cbn in H; discriminate H. }
  rewrite HP in H. apply app_inv_head in H.
  apply app_inj_l in H; [|rewrite !hex_upper_length; lia].
  destruct H as [HA HS]. apply hex_upper_inj in HA; auto.
  destruct t, u; cbn [tkey_addr] in HA; subst; auto; cbn [key_suffix] in HS;
    try discriminate HS; try (cbn in HP; discriminate HP).
  apply app_inv_head in HS. apply decimal_inj in HS. now subst.
Qed.

(* ------------------------------------------------------------------------------------ *)
(** * Contents of the store *)

Definition store_all (P : bytes -> bytes -> Prop) (s : storage) : Prop :=
  Forall (fun kv => P (fst kv) (snd kv)) (st_dirty s)
  /\ Forall (fun kv => P (fst kv) (snd kv)) (st_changes s)
  /\ Forall (fun r => P (vr_key r) (vr_value r)) (db_values (st_db s)).

Lemma ch_insert_all (P : bytes -> bytes -> Prop) k v c :
  P k v -> Forall (fun kv => P (fst kv) (snd kv)) c -> Forall (fun kv => P (fst kv) (snd kv)) (ch_insert k v c).
Proof.
  intros Hkv H. induction H as [|[k' v'] c H Hc IH]; cbn; [repeat constructor; exact Hkv|].
  destruct (bytes_eqb k k'); constructor; cbn; auto.
Qed.

Lemma ch_get_all (P : bytes -> bytes -> Prop) k v c :
  Forall (fun kv => P (fst kv) (snd kv)) c -> ch_get k c = Some v -> P k v.
Proof.
  induction 1 as [|[k' v'] c H _ IH]; cbn; [discriminate|].
  destruct (bytes_eqb k k') eqn:E; auto.
  intros [= ->]. apply bytes_eqb_spec in E. subst. exact H.
Qed.

Lemma upsert_all (P : bytes -> bytes -> Prop) s k v : P k v -> store_all P s -> store_all P (upsert_by_hash s k v).
Proof. intros H (A & B & C). repeat split; cbn; auto. now apply ch_insert_all. Qed.

Lemma rollback_all (P : bytes -> bytes -> Prop) s : store_all P s -> store_all P (rollback s).
Proof. intros (A & B & C). repeat split; cbn; auto. Qed.

Lemma checkpoint_all (P : bytes -> bytes -> Prop) e s : iterates e -> store_all P s -> store_all P (checkpoint e s).
Proof.
  intros HI (A & B & C). unfold checkpoint.
  assert (A' : Forall (fun kv => P (fst kv) (snd kv)) (env_iter e (st_dirty s))).
  { rewrite Forall_forall in *. intros x Hx. apply A. eapply Permutation_in; [apply HI|exact Hx]. }
  assert (G : forall l fp chs, Forall (fun kv => P (fst kv) (snd kv)) l ->
     Forall (fun kv => P (fst kv) (snd kv)) chs ->
     Forall (fun kv => P (fst kv) (snd kv))
       (snd (fold_left (fun '(fp, chs) '(k, v) =>
                 (xor_fingerprint fp (hash_key_value_pair e k v), ch_insert k v chs)) l (fp, chs)))).
  { induction l as [|[k v] l IH]; intros fp chs Hl Hc; cbn [fold_left]; auto.
    inversion Hl; subst. apply IH; auto. now apply ch_insert_all. }
  specialize (G _ (st_xor s) (st_changes s) A' B).
  destruct (fold_left _ _ _) as [fp chs]. cbn in G. repeat split; cbn; auto.
Qed.

Lemma insert_values_all (P : bytes -> bytes -> Prop) c d l d' :
  Forall (fun kv => P (fst kv) (snd kv)) c ->
  Forall (fun r => P (vr_key r) (vr_value r)) (db_values d) ->
  insert_values d l c = Ok d' -> Forall (fun r => P (vr_key r) (vr_value r)) (db_values d').
Proof.
  revert d. induction c as [|[k v] c IH]; intros d Hc Hd; cbn [insert_values].
  - now intros [= <-].
  - unfold insert_value. destruct (existsb _ _); cbn [bind]; [|discriminate].
    inversion Hc; subst. apply IH; auto. cbn. apply Forall_app. split; auto.
Qed.

Lemma commit_all (P : bytes -> bytes -> Prop) e s : iterates e -> store_all P s -> store_all P (snd (commit e s)).
Proof.
  intros HI (A & B & C). unfold commit.
  destruct (st_dirty s) eqn:ED; [|cbn; repeat split; auto; now rewrite ED].
  destruct (layer_fingerprint _ _ _) as [prev| |]; [|repeat split; cbn; auto..].
  unfold insert_layer. destruct (existsb _ _); [repeat split; cbn; auto|].
  destruct (insert_values _ _ _) as [d2| |] eqn:EV; [|repeat split; cbn; auto..].
  cbn. repeat split; cbn; auto.
  refine (insert_values_all P _ _ _ _ _ _ EV); auto.
  rewrite Forall_forall in *. intros x Hx. apply B. eapply Permutation_in; [apply HI|exact Hx].
Qed.

Lemma rewind_all (P : bytes -> bytes -> Prop) s l : store_all P s -> store_all P (snd (rewind s l)).
Proof.
  intros (A & B & C). unfold rewind. destruct (_ <? _)%Z; [|repeat split; auto].
  destruct (st_dirty s) eqn:ED; [|cbn; repeat split; auto; now rewrite ED].
  repeat split; cbn; auto.
  rewrite Forall_forall in *. intros x Hx. apply filter_In in Hx. now apply C.
Qed.

Lemma pick_latest_in rows r : pick_latest rows = Some r -> In r rows.
Proof.
  revert r. induction rows as [|x rows IH]; intros r; cbn; [discriminate|].
  destruct (pick_latest rows) as [r'|] eqn:E; [destruct (_ <=? _)%Z|]; intros [= <-]; auto.
Qed.

Lemma get_all (P : bytes -> bytes -> Prop) s h l v : store_all P s -> get_by_hash s h l = Ok (Some v) -> P h v.
Proof.
  intros (A & B & C). unfold get_by_hash.
  assert (G : forall (f : value_row -> layer_row -> bool),
    (forall r l', f r l' = true -> bytes_eqb (vr_key r) h = true) ->
    forall x, option_map vr_value (pick_latest (flat_map (fun v => map (fun _ => v)
                  (filter (f v) (db_layers (st_db s)))) (db_values (st_db s)))) = Some x -> P h x).
  { intros f Hf x. destruct (pick_latest _) as [r|] eqn:E; [|discriminate]. cbn. intros [= <-].
    apply pick_latest_in in E. apply in_flat_map in E. destruct E as (r' & Hr' & E).
    apply in_map_iff in E. destruct E as (l' & -> & E). apply filter_In in E. destruct E as [_ E].
    apply Hf in E. apply bytes_eqb_spec in E. rewrite Forall_forall in C. rewrite <- E. now apply C. }
  destruct l as [l|].
  - destruct (_ <? _)%Z; [|discriminate]. intros [= H]. revert H. apply G.
    intros r l'. rewrite !andb_true_iff. tauto.
  - destruct (ch_get h (st_dirty s)) eqn:E1; [intros [= <-]; refine (ch_get_all P _ _ _ _ ltac:(eassumption)); assumption|].
    destruct (ch_get h (st_changes s)) eqn:E2; [intros [= <-]; refine (ch_get_all P _ _ _ _ ltac:(eassumption)); assumption|].
    intros H. injection H as H. revert H. apply G. intros r l'. rewrite andb_true_iff. tauto.
Qed.

(* ------------------------------------------------------------------------------------ *)
(** * Codecs of account records *)

Definition account_data_wf (d : account_data) : Prop :=
  string_wf 255 (ad_name d) /\ array_wf 20 (ad_template d).
Definition account_mut_wf (d : account_mut) : Prop :=
  uint_wf 64 (am_balance d) /\ uint_wf 128 (am_counter d).

Lemma account_data_rt d : account_data_wf d ->
  exists bs, enc_account_data d = Some bs /\ forall rest, dec_account_data (bs ++ rest) = Ok (d, rest).
Proof.
  intros [Hn Ht]. destruct d as [name taddr]. cbn in *.
  unfold enc_account_data, enc_u8, enc_array, enc_string. cbn [ad_name ad_template obind].
  destruct Hn as [[Hl Hb] Hu] eqn:E. clear E.
  replace (nlen name <? 256) with true by lia. cbn [obind].
  eexists. split; [reflexivity|]. intros rest.
  unfold dec_account_data, dec_u8. cbn [app read_byte bind]. change (negb (0 =? 0)) with false. cbn iota.
  rewrite <- app_assoc, dec_array_app by auto. cbn [bind].
  rewrite dec_string_app by (repeat split; auto). reflexivity.
Qed.

Lemma account_mut_rt d : account_mut_wf d ->
  exists bs, enc_account_mut d = Some bs /\ forall rest, dec_account_mut (bs ++ rest) = Ok (d, rest).
Proof.
  intros [Hb Hc]. destruct d as [b c]. cbn [am_balance am_counter] in *.
  unfold enc_account_mut, enc_u8, enc_u64, enc_u128, enc_uint. cbn [am_balance am_counter obind].
  eexists. split; [reflexivity|]. intros rest.
  unfold dec_account_mut, dec_u8. cbn [app read_byte bind]. change (negb (0 =? 0)) with false. cbn iota.
  rewrite <- app_assoc, dec_u64_app by auto. cbn [bind].
  rewrite dec_u128_app by auto. reflexivity.
Qed.

Lemma sections_dec l bs : sections_wf l -> enc_sections l = Some bs ->
  dec_sections None bs = Ok (l, []).
Proof.
  intros H E. destruct (sections_rt l H) as (bs' & E' & _ & D).
  rewrite E in E'. apply Some_inj in E'. subst bs'.
  specialize (D None []). rewrite app_nil_r in D. now rewrite D, keep_all.
Qed.

(* ------------------------------------------------------------------------------------ *)
(** * Typed contents *)

Definition typed_value (t : tkey) (v : bytes) : Prop :=
  match t with
  | TImm _ => exists d, account_data_wf d /\ enc_account_data d = Some v
  | TMut _ => exists d, account_mut_wf d /\ enc_account_mut d = Some v
  | TSeg _ _ => length v = 32%nat /\ bytes_ok v
  | TCore _ | TNon _ => exists l, sections_wf l /\ enc_sections l = Some v
  end.
Definition good (e : env) (k v : bytes) : Prop :=
  forall t, tkey_wf t -> k = env_hash e (key_of t) -> typed_value t v.
Definition typed (e : env) (g : gstate) : Prop := store_all (good e) (gs_storage g).

Lemma good_intro e t v : collision_free e -> tkey_wf t -> typed_value t v ->
  good e (env_hash e (key_of t)) v.
Proof.
  intros HC Ht Hv u Hu H. apply HC in H; [|now apply tkey_storage..]. apply key_of_inj in H; auto. now subst.
Qed.

Lemma typed_get e g t l v : typed e g -> tkey_wf t ->
  get e (gs_storage g) (key_of t) l = Ok (Some v) -> typed_value t v.
Proof. intros HT Ht H. eapply (get_all _ _ _ _ _ HT H); eauto. Qed.

Definition preserves {A} (I : gstate -> Prop) (m : gm A) : Prop := forall g, I g -> I (snd (m g)).
Definition reads {A} (m : gm A) : Prop := forall g, snd (m g) = g.

Lemma preserves_bind {A B} I (m : gm A) (k : A -> gm B) :
  preserves I m -> (forall a, preserves I (k a)) -> preserves I (gbind m k).
Proof.
  intros Hm Hk g Hg. unfold gbind. specialize (Hm g Hg). destruct (m g) as [[a| |] g']; cbn in *; auto.
  now apply Hk.
Qed.
Lemma preserves_ret {A} I (a : A) : preserves I (gret a).
Proof. now intros g. Qed.
Lemma preserves_panic {A} I : preserves I (@gpanic A).
Proof. now intros g. Qed.
Lemma preserves_err {A} I x : preserves I (@gerr A x).
Proof. now intros g. Qed.
Lemma preserves_some {A} I (o : option A) : preserves I (gsome o).
Proof. destruct o; now intros g. Qed.
Lemma preserves_reads {A} I (m : gm A) : reads m -> preserves I m.
Proof. intros H g Hg. now rewrite H. Qed.

Lemma reads_bind {A B} (m : gm A) (k : A -> gm B) :
  reads m -> (forall a, reads (k a)) -> reads (gbind m k).
Proof.
  intros Hm Hk g. unfold gbind. specialize (Hm g). destruct (m g) as [[a| |] g']; cbn in *; subst; auto.
  apply Hk.
Qed.
Lemma reads_some {A} (o : option A) : reads (gsome o).
Proof. destruct o; now intros g. Qed.
Lemma reads_ret {A} (a : A) : reads (gret a). Proof. now intros g. Qed.
Lemma reads_panic {A} : reads (@gpanic A). Proof. now intros g. Qed.
Lemma reads_get e k l : reads (gs_get e k l). Proof. now intros g. Qed.
Lemma reads_decode {A} e (d : decoder A) k : reads (read_and_decode e d k).
Proof.
  intros g. unfold read_and_decode. apply reads_bind; [apply reads_get|].
  intros [bs|]; [|now intros ?]. destruct (d bs) as [[a r]| |]; now intros ?.
Qed.
Lemma reads_segment e a n : reads (read_segment e a n).
Proof. apply reads_bind; [apply reads_get|]. intros [bs|]; [destruct (_ =? _)|]; now intros ?. Qed.
Lemma reads_segments e a segs : reads (read_segments e a segs).
Proof.
  induction segs; cbn [read_segments]; [apply reads_ret|].
  apply reads_bind; [apply reads_segment|]. intros. apply reads_bind; auto. intros. apply reads_ret.
Qed.
Lemma reads_sections e a : reads (template_sections e a).
Proof. repeat (apply reads_bind; [apply reads_decode|intros]). apply reads_ret. Qed.
Lemma reads_layout e a : reads (template_layout e a).
Proof.
  apply reads_bind; [apply reads_sections|]. intros l.
  destruct (get_section KData l) as [[| |[|]| | | |]|]; now intros ?.
Qed.
Lemma reads_load e a : reads (account_load e a).
Proof.
  apply reads_bind; [apply reads_decode|intros]. apply reads_bind; [apply reads_layout|intros]. apply reads_ret.
Qed.
Lemma reads_get_var e a id b : reads (get_var e a id b).
Proof.
  apply reads_bind; [apply reads_some|intros [? ?]]. apply reads_bind; [apply reads_segments|intros]. apply reads_ret.
Qed.

Lemma typed_upsert e t v : collision_free e -> tkey_wf t -> typed_value t v ->
  preserves (typed e) (gs_upsert e (key_of t) v).
Proof. intros HC Ht Hv g Hg. cbn. apply upsert_all; auto. now apply good_intro. Qed.

Lemma typed_write {A} e t (enc : encoder A) x : collision_free e -> tkey_wf t ->
  (forall bs, enc x = Some bs -> typed_value t bs) ->
  preserves (typed e) (encode_and_write e enc x (key_of t)).
Proof.
  intros HC Ht Hv. unfold encode_and_write. destruct (enc x) as [bs|]; cbn.
  - intros g Hg. unfold gbind, gret. apply typed_upsert; auto.
  - intros g Hg. exact Hg.
Qed.

Lemma read_mut_wf e a g d g' : typed e g -> array_wf 20 a ->
  read_and_decode e dec_account_mut (key_mutable a) g = (Ok d, g') -> account_mut_wf d.
Proof.
  intros HT Ha. unfold read_and_decode, gbind, gs_get.
  destruct (get _ _ _ _) as [[bs|]| |] eqn:E; cbn [lift]; try discriminate.
  destruct (typed_get e g (TMut a) _ _ HT (conj Ha I) E) as (d' & Hd & Ed).
  destruct (account_mut_rt d' Hd) as (bs' & E1 & D). rewrite Ed in E1. apply Some_inj in E1. subst bs'.
  specialize (D []). rewrite app_nil_r in D. rewrite D. intros [= <- _]. exact Hd.
Qed.

Lemma typed_replace_mut e a f : collision_free e -> array_wf 20 a ->
  (forall d, account_mut_wf d -> account_mut_wf (f d)) ->
  preserves (typed e) (replace e dec_account_mut enc_account_mut (key_mutable a) f).
Proof.
  intros HC Ha Hf g Hg. unfold replace, gbind.
  pose proof (reads_decode e dec_account_mut (key_mutable a) g) as HR.
  destruct (read_and_decode _ _ _ g) as [[d| |] g'] eqn:E; cbn in HR; subst g'; auto.
  apply (typed_write e (TMut a)); [auto|now split| |auto]. intros bs Hbs. exists (f d). split; auto.
  apply Hf. eapply read_mut_wf; eauto.
Qed.

Lemma typed_write_account e addr name taddr b c : collision_free e ->
  array_wf 20 addr -> string_wf 255 name -> array_wf 20 taddr -> uint_wf 64 b -> uint_wf 128 c ->
  preserves (typed e) (write_account e addr name taddr b c).
Proof.
  intros HC Ha Hn Ht Hb Hc. apply preserves_bind; [|intros _].
  - apply (typed_write e (TImm addr)); [auto|now split|]. intros bs E. eexists; split; [|exact E]. split; auto.
  - apply (typed_write e (TMut addr)); [auto|now split|]. intros bs E. eexists; split; [|exact E]. split; auto.
Qed.

Lemma typed_template e addr core noncore : collision_free e ->
  array_wf 20 addr -> sections_wf core -> sections_wf noncore ->
  preserves (typed e) (template_create e addr core noncore).
Proof.
  intros HC Ha H1 H2. apply preserves_bind; [|intros _].
  - apply (typed_write e (TCore addr)); [auto|now split|]. intros bs E. eexists; split; [|exact E]; auto.
  - apply (typed_write e (TNon addr)); [auto|now split|]. intros bs E. eexists; split; [|exact E]; auto.
Qed.

(** ** [remove_noncore] splits the sections in two well-formed parts *)
Lemma find_index_nth k l i : find_index k l = Some i ->
  exists x, nth_error l i = Some x /\ section_kind_of x = k.
Proof.
  revert i. induction l as [|x l IH]; intros i; cbn; [discriminate|].
  destruct (kind_eqb k (section_kind_of x)) eqn:E.
  - intros [= <-]. exists x. split; auto. symmetry. now apply kind_eqb_spec.
  - destruct (find_index k l) as [j|]; cbn; [|discriminate]. intros [= <-]. destruct (IH j eq_refl) as (y & ? & ?). eauto.
Qed.

Lemma replace_at_perm (i : nat) z l x : nth_error l i = Some x -> Permutation (x :: replace_at i z l) (z :: l).
Proof.
  revert i. induction l as [|y l IH]; intros [|i]; cbn; try discriminate.
  - intros [= ->]. apply perm_swap.
  - intros H. rewrite perm_swap, (IH i H). apply perm_swap.
Qed.

Lemma take_section_perm k l x l' : take_section k l = Some (x, l') ->
  Permutation l (x :: l') /\ section_kind_of x = k.
Proof.
  unfold take_section. destruct (find_index k l) as [i|] eqn:E; cbn [obind]; [|discriminate].
  destruct (find_index_nth _ _ _ E) as (x0 & Hx & Hk). rewrite Hx. cbn [obind].
  destruct (nth_error l (length l - 1)) as [z|] eqn:Ez; cbn [obind]; [|discriminate].
  intros H. apply Some_inj in H. injection H as <- <-. split; auto.
  assert (L : l <> []) by (destruct l; [destruct i; discriminate|discriminate]).
  destruct (exists_last L) as (m & y & ->). rewrite removelast_last.
  rewrite app_length, Nat.add_sub in *. cbn [length] in *.
  rewrite nth_error_app2 in Ez by lia. replace (length m - length m)%nat with O in Ez by lia. cbn in Ez.
  injection Ez as ->.
  destruct (Nat.eqb_spec i (length m)) as [->|Hn].
  - rewrite nth_error_app2 in Hx by lia. replace (length m - length m)%nat with O in Hx by lia. cbn in Hx.
    injection Hx as ->. symmetry. apply Permutation_cons_append.
  - assert (i < length m)%nat.
    { assert (i < length (m ++ [z]))%nat by (apply nth_error_Some; congruence). rewrite app_length in H. cbn in H. lia. }
    rewrite nth_error_app1 in Hx by lia.
    rewrite (replace_at_perm i z m x0 Hx). symmetry. apply Permutation_cons_append.
Qed.

Lemma remove_noncore_perm l a b : remove_noncore l = Some (a, b) -> Permutation l (a ++ b).
Proof.
  unfold remove_noncore.
  destruct (take_section KCode l) as [[c l1]|] eqn:E1; cbn [obind]; [|discriminate].
  destruct (take_section KCtors l1) as [[t l2]|] eqn:E2; cbn [obind]; [|discriminate].
  destruct (take_section KData l2) as [[d l3]|] eqn:E3; cbn [obind]; [|discriminate].
  intros [= <- <-]. apply take_section_perm in E1, E2, E3.
  destruct E1 as [-> _], E2 as [-> _], E3 as [-> _]. reflexivity.
Qed.

Lemma sections_wf_perm l l' : Permutation l l' -> sections_wf l -> sections_wf l'.
Proof.
  intros HP [HN HF]. split.
  - eapply Permutation_NoDup; [|exact HN]. now apply Permutation_map.
  - rewrite Forall_forall in *. intros x Hx. apply HF. eapply Permutation_in; [symmetry|]; eauto.
Qed.

Lemma NoDup_app_l {A} (a b : list A) : NoDup (a ++ b) -> NoDup a.
Proof.
  induction a; cbn; intros H; [constructor|]. inversion H; subst. constructor; auto.
  intros X. apply H2. apply in_or_app. auto.
Qed.
Lemma NoDup_app_r {A} (a b : list A) : NoDup (a ++ b) -> NoDup b.
Proof. induction a; cbn; auto. intros H. inversion H; auto. Qed.

Lemma sections_wf_app a b : sections_wf (a ++ b) -> sections_wf a /\ sections_wf b.
Proof.
  intros [HN HF]. rewrite map_app in HN. apply Forall_app in HF. destruct HF.
  split; split; auto.
  - eapply NoDup_app_l; eauto.
  - eapply NoDup_app_r; eauto.
Qed.

(* ------------------------------------------------------------------------------------ *)
(** * The current contents, as a flat byte memory per account *)

Definition cur (e : env) (g : gstate) (k : bytes) : option bytes :=
  match get e (gs_storage g) k None with Ok o => o | _ => None end.

Lemma get_now_ok s h : exists o, get_by_hash s h None = Ok o.
Proof. unfold get_by_hash. destruct (ch_get h _); [|destruct (ch_get h _)]; eauto. Qed.

Lemma gs_get_now e k g : gs_get e k None g = (Ok (cur e g k), g).
Proof.
  unfold gs_get, cur, get. destruct (get_now_ok (gs_storage g) (env_hash e k)) as [o ->]. reflexivity.
Qed.

Lemma cur_upsert e g k v k' : collision_free e -> storage_key k -> storage_key k' ->
  cur e (snd (gs_upsert e k v g)) k' = if bytes_eqb k' k then Some v else cur e g k'.
Proof.
  intros HC Hk Hk'. unfold cur, gs_upsert, get, upsert. cbn [snd gs_storage]. rewrite get_upsert.
  destruct (bytes_eqb k' k) eqn:E.
  - apply bytes_eqb_spec in E. subst. now rewrite beqb_refl.
  - rewrite beqb_neq; auto. intros H. apply HC in H; auto. subst. now rewrite beqb_refl in E.
Qed.

Lemma typed_cur e g t v : typed e g -> tkey_wf t -> cur e g (key_of t) = Some v -> typed_value t v.
Proof.
  intros HT Ht H. apply (typed_get e g t None v HT Ht). unfold cur in H.
  destruct (get _ _ _ _) as [o| |]; try discriminate. now subst.
Qed.

Definition seg (e : env) (g : gstate) (a : bytes) (n : N) : bytes :=
  match cur e g (key_segment a n) with Some v => v | None => zero_segment end.

Lemma seg_len e g a n : typed e g -> array_wf 20 a -> n <= u32_max -> length (seg e g a n) = 32%nat.
Proof.
  intros HT Ha Hn. unfold seg. destruct (cur e g (key_segment a n)) eqn:E; [|reflexivity].
  apply (typed_cur e g (TSeg a n)) in E; [|assumption|split; assumption]. exact (proj1 E).
Qed.
Lemma seg_ok e g a n : typed e g -> array_wf 20 a -> n <= u32_max -> bytes_ok (seg e g a n).
Proof.
  intros HT Ha Hn. unfold seg. destruct (cur e g (key_segment a n)) eqn:E.
  - apply (typed_cur e g (TSeg a n)) in E; [|assumption|split; assumption]. exact (proj2 E).
  - apply bytes_okb_ok. reflexivity.
Qed.

Lemma read_segment_eq e g a n : typed e g -> array_wf 20 a -> n <= u32_max ->
  read_segment e a n g = (Ok (seg e g a n), g).
Proof.
  intros HT Ha Hn. unfold read_segment, gbind. rewrite gs_get_now.
  pose proof (seg_len e g a n HT Ha Hn) as HL. unfold seg in *.
  destruct (cur e g (key_segment a n)) as [v|]; [|reflexivity].
  replace (nlen v =? SEGMENT_SIZE) with true; [reflexivity|]. unfold nlen, SEGMENT_SIZE. lia.
Qed.

(** Byte [i] of the storage of account [a]. *)
Definition byte_at (e : env) (g : gstate) (a : bytes) (i : N) : N :=
  nth (N.to_nat (i mod 32)) (seg e g a (i / 32)) 0.

(** The addresses [off, off + n). *)
Definition range (off : N) (n : nat) : list N := map (fun i => off + N.of_nat i) (seq 0 n).

Lemma range_S off n : range off (S n) = off :: range (off + 1) n.
Proof.
  unfold range. cbn [seq map]. f_equal; [lia|]. rewrite <- seq_shift, map_map. apply map_ext. intros. lia.
Qed.
Lemma range_app off n m : range off (n + m) = range off n ++ range (off + N.of_nat n) m.
Proof.
  revert off. induction n; intros off.
  - cbn [plus seq map app]. change (N.of_nat 0) with 0. now rewrite N.add_0_r.
  - cbn [plus]. rewrite !range_S, IHn. cbn [app]. do 3 f_equal. lia.
Qed.
Lemma range_length off n : length (range off n) = n.
Proof. unfold range. now rewrite map_length, seq_length. Qed.
Lemma range_in off n x : In x (range off n) <-> off <= x < off + N.of_nat n.
Proof.
  unfold range. rewrite in_map_iff. split.
  - intros (i & <- & Hi). apply in_seq in Hi. lia.
  - intros H. exists (N.to_nat (x - off)). split; [lia|]. apply in_seq. lia.
Qed.

Lemma firstn_skipn_nth (l : bytes) a n : (a + n <= length l)%nat ->
  firstn n (skipn a l) = map (fun i => nth i l 0) (seq a n).
Proof.
  revert a l. induction n; intros a l H; [reflexivity|]. cbn [seq map].
  destruct (skipn a l) as [|x r] eqn:E.
  - apply (f_equal (@length _)) in E. rewrite skipn_length in E. cbn in E. lia.
  - assert (x = nth a l 0 /\ r = skipn (S a) l) as [-> ->].
    { clear -E H. revert l E H. induction a; intros [|y l] E H; cbn in *; try discriminate; try lia.
      - now injection E as -> ->.
      - apply IHa; auto. lia. }
    cbn [firstn]. f_equal. apply IHn. lia.
Qed.

Lemma seq_add k z m : map (fun x => (k + x)%nat) (seq z m) = seq (k + z) m.
Proof.
  revert z. induction m; intros z; [reflexivity|]. cbn [seq map]. f_equal. rewrite IHm. f_equal. lia.
Qed.

(** One segment covers one stretch of the memory. *)
Lemma segment_slice e g a n (st en : N) : typed e g -> array_wf 20 a -> n <= u32_max -> st <= en -> en < 32 ->
  firstn (N.to_nat (en - st + 1)) (skipn (N.to_nat st) (seg e g a n))
  = map (byte_at e g a) (range (n * 32 + st) (N.to_nat (en - st + 1))).
Proof.
  intros HT Ha Hn H1 H2. pose proof (seg_len e g a n HT Ha Hn) as HL.
  rewrite firstn_skipn_nth by lia. unfold range. rewrite map_map.
  assert (Hm : st + N.of_nat (N.to_nat (en - st + 1)) <= 32) by lia. revert Hm.
  generalize (N.to_nat (en - st + 1)) as m. intros m Hm.
  replace (seq (N.to_nat st) m) with (map (fun x => (N.to_nat st + x)%nat) (seq 0 m)).
  - rewrite map_map. apply map_ext_in. intros x Hx. apply in_seq in Hx. unfold byte_at.
    replace (n * 32 + st + N.of_nat x) with ((st + N.of_nat x) + n * 32) by lia.
    rewrite N.mod_add, N.div_add by lia. rewrite N.mod_small, N.div_small by lia.
    f_equal. lia.
  - rewrite seq_add. f_equal. lia.
Qed.

Lemma segments_loop_read e g a fuel idx rem : typed e g -> array_wf 20 a ->
  idx + 1 + rem <= u32_max -> (N.to_nat rem <= fuel)%nat ->
  read_segments e a (segments_loop fuel idx rem) g
  = (Ok (map (byte_at e g a) (range ((idx + 1) * 32) (N.to_nat rem))), g).
Proof.
  intros HT Ha. revert idx rem. induction fuel as [|fuel IH]; intros idx rem Hx Hf.
  - replace rem with 0 by lia. reflexivity.
  - cbn [segments_loop]. destruct (N.eqb_spec rem 0) as [->|Hr]; [reflexivity|].
    cbn [read_segments]. unfold gbind. rewrite read_segment_eq by (auto; cbn [sg_index]; lia).
    cbn [sg_index sg_start sg_end]. unfold sg_len. cbn [sg_start sg_end]. unfold SEGMENT_SIZE in *.
    rewrite IH by lia. unfold gret. do 2 f_equal.
    rewrite segment_slice by (auto; lia). rewrite <- map_app. f_equal.
    replace ((idx + 1 + 1) * 32) with ((idx + 1) * 32 + 0 + N.of_nat 32) by lia.
    destruct (N.le_gt_cases rem 32).
    + replace (N.min (32 - 1) (rem - 1) - 0 + 1) with rem by lia.
      replace (N.to_nat (rem - 32)) with O by lia. rewrite app_nil_r. f_equal. lia.
    + replace (N.min (32 - 1) (rem - 1) - 0 + 1) with (N.of_nat 32) by lia. rewrite Nat2N.id.
      rewrite <- range_app. f_equal; lia.
Qed.

Lemma var_segments_read e g a off size segs : typed e g -> array_wf 20 a ->
  var_segments off size = Some segs -> off + size <= u32_max ->
  read_segments e a segs g = (Ok (map (byte_at e g a) (range off (N.to_nat size))), g).
Proof.
  intros HT Ha. unfold var_segments. destruct (N.eqb_spec size 0); [discriminate|].
  intros H Hx. apply Some_inj in H. subst segs. unfold SEGMENT_SIZE.
  pose proof (N.mod_lt off 32 ltac:(lia)) as Hm. pose proof (N.div_mod off 32 ltac:(lia)) as Hd.
  set (st := off mod 32) in *. set (idx := off / 32) in *.
  set (en := N.min (st + size - 1) (32 - 1)).
  cbn [read_segments]. unfold gbind. rewrite read_segment_eq by (auto; cbn [sg_index]; lia).
  cbn [sg_index sg_start sg_end]. unfold sg_len. cbn [sg_start sg_end].
  rewrite segments_loop_read by (auto; lia). unfold gret. do 2 f_equal.
  rewrite segment_slice by (auto; lia). rewrite <- map_app. f_equal.
  replace (idx * 32 + st) with off by lia.
  destruct (N.le_gt_cases (st + size) 32).
  - replace (N.to_nat (size - (en - st + 1))) with O by lia. rewrite app_nil_r. f_equal. lia.
  - replace ((idx + 1) * 32) with (off + N.of_nat (N.to_nat (en - st + 1))) by lia.
    rewrite <- range_app. f_equal. lia.
Qed.

(** ** Writes *)

(** Memory [f] with [v] written at [off]. *)
Definition poke (f : N -> N) (off : N) (v : bytes) (i : N) : N :=
  if (off <=? i) && (i <? off + nlen v) then nth (N.to_nat (i - off)) v 0 else f i.

(** [g'] differs from [g] at most in the segments of account [a], whose memory is [f]. *)
Record wrote (e : env) (a : bytes) (g g' : gstate) (f : N -> N) : Prop := {
  wr_typed : typed e g';
  wr_byte : forall i, i / 32 <= u32_max -> byte_at e g' a i = f i;
  wr_other : forall t, tkey_wf t -> (forall n, t <> TSeg a n) -> cur e g' (key_of t) = cur e g (key_of t);
  wr_param : gs_layer_param g' = gs_layer_param g;
  wr_storage : exists d, gs_storage g' = mkStorage (st_db (gs_storage g)) d (st_next_id (gs_storage g))
                                   (st_changes (gs_storage g)) (st_xor (gs_storage g))
}.

Lemma nth_splice (bs part : bytes) st i :
  (st + length part <= length bs)%nat ->
  nth i (firstn st bs ++ part ++ skipn (st + length part) bs) 0
  = if ((st <=? i) && (i <? st + length part))%nat then nth (i - st) part 0 else nth i bs 0.
Proof.
  intros H. destruct (Nat.leb_spec st i).
  - rewrite app_nth2 by (rewrite firstn_length; lia). rewrite firstn_length, Nat.min_l by lia.
    destruct (Nat.ltb_spec i (st + length part)); cbn [andb].
    + now rewrite app_nth1 by lia.
    + rewrite app_nth2 by lia. rewrite <- (firstn_skipn (st + length part) bs) at 2.
      rewrite app_nth2 by (rewrite firstn_length; lia). f_equal. rewrite firstn_length. lia.
  - cbn [andb]. rewrite app_nth1 by (rewrite firstn_length; lia).
    rewrite <- (firstn_skipn st bs) at 2. now rewrite app_nth1 by (rewrite firstn_length; lia).
Qed.

Lemma firstn_ok n (l : bytes) : bytes_ok l -> bytes_ok (firstn n l).
Proof.
  intros H. apply Forall_forall. intros x Hx. unfold bytes_ok in H. rewrite Forall_forall in H. apply H.
  rewrite <- (firstn_skipn n l). apply in_or_app. auto.
Qed.
Lemma skipn_ok n (l : bytes) : bytes_ok l -> bytes_ok (skipn n l).
Proof.
  intros H. apply Forall_forall. intros x Hx. unfold bytes_ok in H. rewrite Forall_forall in H. apply H.
  rewrite <- (firstn_skipn n l). apply in_or_app. auto.
Qed.

Lemma splice_ok (bs part : bytes) st n : bytes_ok bs -> bytes_ok part ->
  bytes_ok (firstn st bs ++ part ++ skipn n bs).
Proof.
  intros Hb Hp. apply Forall_app. split; [now apply firstn_ok|]. apply Forall_app. split; auto. now apply skipn_ok.
Qed.

Lemma write_one e g a n st (part : bytes) : collision_free e -> typed e g -> array_wf 20 a ->
  n <= u32_max -> bytes_ok part -> st + nlen part <= 32 ->
  let bs := seg e g a n in
  let bs' := firstn (N.to_nat st) bs ++ part ++ skipn (N.to_nat (st + nlen part)) bs in
  wrote e a g (snd (gs_upsert e (key_segment a n) bs' g)) (poke (byte_at e g a) (n * 32 + st) part).
Proof.
  intros HC HT Ha Hn Hp Hl bs bs'. set (g' := snd (gs_upsert e (key_segment a n) bs' g)).
  pose proof (seg_len e g a n HT Ha Hn) as HL. fold bs in HL.
  assert (HB : bytes_ok bs) by (apply seg_ok; auto).
  assert (Ln : (N.to_nat (st + nlen part) = N.to_nat st + length part)%nat) by (unfold nlen; lia).
  assert (Hbs' : length bs' = 32%nat).
  { unfold bs'. rewrite !app_length, firstn_length, skipn_length. unfold nlen in *. lia. }
  assert (Hseg : forall m, m <= u32_max -> seg e g' a m = if m =? n then bs' else seg e g a m).
  { intros m Hm32. unfold seg, g'. rewrite cur_upsert by (auto; now constructor). destruct (N.eqb_spec m n) as [->|Hm].
    - now rewrite beqb_refl.
    - rewrite beqb_neq; auto. intros H. apply (key_of_inj (TSeg a m) (TSeg a n)) in H; [|now split..]. congruence. }
  constructor.
  - apply (typed_upsert e (TSeg a n)); auto; [now split|]. split; auto. unfold bs'. now apply splice_ok.
  - intros i Hi32. unfold byte_at. rewrite Hseg by auto. unfold poke.
    pose proof (N.mod_lt i 32 ltac:(lia)) as Hm. pose proof (N.div_mod i 32 ltac:(lia)) as Hd.
    destruct (N.eqb_spec (i / 32) n) as [En|En].
    + unfold bs'. rewrite Ln, nth_splice by (unfold nlen in *; lia).
      replace ((n * 32 + st <=? i) && (i <? n * 32 + st + nlen part))
        with ((N.to_nat st <=? N.to_nat (i mod 32)) && (N.to_nat (i mod 32) <? N.to_nat st + length part))%nat
        by (unfold nlen; lia).
      destruct (_ && _) eqn:Eb.
      * f_equal. lia.
      * unfold byte_at. unfold bs. now rewrite En.
    + replace ((n * 32 + st <=? i) && (i <? n * 32 + st + nlen part)) with false; [reflexivity|].
      symmetry. apply andb_false_iff. destruct (N.lt_ge_cases (i / 32) n); [left|right]; lia.
  - intros t Ht Hne. unfold g'.
    rewrite cur_upsert; [|auto|now constructor|now apply tkey_storage]. rewrite beqb_neq; auto.
    intros H. apply (key_of_inj t (TSeg a n)) in H; [|auto|now split]. now apply Hne in H.
  - reflexivity.
  - unfold g', gs_upsert, upsert, upsert_by_hash. cbn. eauto.
Qed.

Lemma wrote_trans e a g g1 g2 f1 f2 : wrote e a g g1 f1 -> wrote e a g1 g2 f2 -> wrote e a g g2 f2.
Proof.
  intros [A1 B1 C1 D1 (d1 & E1)] [A2 B2 C2 D2 (d2 & E2)]. constructor; auto.
  - intros. rewrite C2 by auto. auto.
  - congruence.
  - exists d2. rewrite E2, E1. reflexivity.
Qed.
Lemma wrote_ext e a g g' f f' : (forall i, i / 32 <= u32_max -> f i = f' i) -> wrote e a g g' f -> wrote e a g g' f'.
Proof. intros H [A B C D E]. constructor; auto. intros. rewrite <- H by auto. auto. Qed.

Lemma poke_nil f off i : poke f off [] i = f i.
Proof. unfold poke. change (nlen (@nil N)) with 0. replace (_ && _) with false by lia. reflexivity. Qed.
Lemma poke_app f off a b i : poke f off (a ++ b) i = poke (poke f off a) (off + nlen a) b i.
Proof.
  unfold poke. rewrite nlen_app.
  destruct (N.leb_spec off i), (N.ltb_spec i (off + (nlen a + nlen b))), (N.leb_spec (off + nlen a) i),
    (N.ltb_spec i (off + nlen a + nlen b)), (N.ltb_spec i (off + nlen a)); cbn [andb]; try lia; auto.
  - rewrite app_nth2 by (unfold nlen in *; lia). f_equal. unfold nlen. lia.
  - rewrite app_nth1 by (unfold nlen in *; lia). reflexivity.
Qed.
Lemma poke_ext f g off v i : f i = g i -> poke f off v i = poke g off v i.
Proof. intros H. unfold poke. destruct (_ && _); auto. Qed.

Lemma segments_loop_write e a fuel : collision_free e -> array_wf 20 a ->
  forall g idx rem v, typed e g -> idx + 1 + rem <= u32_max -> (N.to_nat rem <= fuel)%nat -> nlen v = rem -> bytes_ok v ->
  exists g', write_segments e a (segments_loop fuel idx rem) v g = (Ok tt, g')
             /\ wrote e a g g' (poke (byte_at e g a) ((idx + 1) * 32) v).
Proof.
  intros HC Ha. induction fuel as [|fuel IH]; intros g idx rem v HT Hx Hf Hv Hb.
  - assert (v = []) by (destruct v; auto; rewrite nlen_cons in Hv; lia). subst.
    eexists. split; [reflexivity|]. constructor; auto; [intros; now rewrite poke_nil|].
    exists (st_dirty (gs_storage g)). now destruct (gs_storage g).
  - cbn [segments_loop]. destruct (N.eqb_spec rem 0) as [E0|Hr].
    + assert (v = []) by (destruct v; auto; rewrite nlen_cons in Hv; lia). subst v.
      eexists. split; [reflexivity|]. constructor; auto; [intros; now rewrite poke_nil|].
      exists (st_dirty (gs_storage g)). now destruct (gs_storage g).
    + cbn [write_segments]. unfold gbind at 1. rewrite read_segment_eq by (auto; cbn [sg_index]; lia).
      cbn [sg_index sg_start sg_end]. unfold sg_len. cbn [sg_start sg_end]. unfold SEGMENT_SIZE in *.
      set (k := N.min (32 - 1) (rem - 1) - 0 + 1). set (part := firstn (N.to_nat k) v).
      assert (Lp : nlen part = k) by (unfold part, nlen in *; rewrite firstn_length; lia).
      replace (N.min (32 - 1) (rem - 1) + 1) with (0 + nlen part) by lia.
      pose proof (write_one e g a (idx + 1) 0 part HC HT Ha ltac:(lia) ltac:(now apply firstn_ok) ltac:(lia)) as W1.
      cbv zeta in W1. unfold gbind.
      match goal with |- context [gs_upsert e _ ?b g] => set (bs' := b) in * end.
      change (gs_upsert e (key_segment a (idx + 1)) bs' g)
        with (@Ok gs_error unit tt, snd (gs_upsert e (key_segment a (idx + 1)) bs' g)).
      set (g1 := snd (gs_upsert e (key_segment a (idx + 1)) bs' g)) in *.
      destruct (IH g1 (idx + 1) (rem - 32) (skipn (N.to_nat k) v)) as (g' & Hw & W2).
      * apply W1.
      * lia.
      * lia.
      * unfold nlen in *. rewrite skipn_length. lia.
      * now apply skipn_ok.
      * exists g'. split; [exact Hw|]. eapply wrote_ext; [|eapply wrote_trans; [exact W1|exact W2]].
        intros i Hi. cbn beta. rewrite <- (firstn_skipn (N.to_nat k) v) at 2. fold part.
        rewrite poke_app. destruct (N.le_gt_cases rem 32).
        -- assert (skipn (N.to_nat k) v = []) as ->.
           { apply length_zero_iff_nil. rewrite skipn_length. unfold nlen in *. lia. }
           rewrite !poke_nil. rewrite (wr_byte _ _ _ _ _ W1) by auto. now rewrite N.add_0_r.
        -- replace ((idx + 1 + 1) * 32) with ((idx + 1) * 32 + nlen part) by lia.
           apply poke_ext. rewrite (wr_byte _ _ _ _ _ W1) by auto. now rewrite N.add_0_r.
Qed.

Lemma var_segments_write e a g off size segs v : collision_free e -> array_wf 20 a -> typed e g ->
  var_segments off size = Some segs -> off + size <= u32_max -> nlen v = size -> bytes_ok v ->
  exists g', write_segments e a segs v g = (Ok tt, g') /\ wrote e a g g' (poke (byte_at e g a) off v).
Proof.
  intros HC Ha HT. unfold var_segments. destruct (N.eqb_spec size 0); [discriminate|].
  intros H Hx Hv Hb. apply Some_inj in H. subst segs. unfold SEGMENT_SIZE.
  pose proof (N.mod_lt off 32 ltac:(lia)) as Hm. pose proof (N.div_mod off 32 ltac:(lia)) as Hd.
  set (st := off mod 32) in *. set (idx := off / 32) in *.
  set (en := N.min (st + size - 1) (32 - 1)).
  cbn [write_segments]. unfold gbind at 1. rewrite read_segment_eq by (auto; cbn [sg_index]; lia).
  cbn [sg_index sg_start sg_end]. unfold sg_len. cbn [sg_start sg_end].
  set (k := en - st + 1). set (part := firstn (N.to_nat k) v).
  assert (Lp : nlen part = k) by (unfold part, nlen in *; rewrite firstn_length; lia).
  replace (en + 1) with (st + nlen part) by lia.
  pose proof (write_one e g a idx st part HC HT Ha ltac:(lia) ltac:(now apply firstn_ok) ltac:(lia)) as W1.
  cbv zeta in W1. unfold gbind.
  match goal with |- context [gs_upsert e _ ?b g] => set (bs' := b) in * end.
  change (gs_upsert e (key_segment a idx) bs' g)
    with (@Ok gs_error unit tt, snd (gs_upsert e (key_segment a idx) bs' g)).
  set (g1 := snd (gs_upsert e (key_segment a idx) bs' g)) in *.
  destruct (segments_loop_write e a (N.to_nat size) HC Ha g1 idx (size - k) (skipn (N.to_nat k) v)) as (g' & Hw & W2).
  - apply W1.
  - lia.
  - lia.
  - unfold nlen in *. rewrite skipn_length. lia.
  - now apply skipn_ok.
  - exists g'. split; [exact Hw|]. eapply wrote_ext; [|eapply wrote_trans; [exact W1|exact W2]].
    intros i Hi. cbn beta. rewrite <- (firstn_skipn (N.to_nat k) v) at 2. fold part.
    rewrite poke_app. replace (idx * 32 + st) with off in * by lia.
    destruct (N.le_gt_cases (st + size) 32).
    + assert (skipn (N.to_nat k) v = []) as ->.
      { apply length_zero_iff_nil. rewrite skipn_length. unfold nlen in *. lia. }
      rewrite !poke_nil. now apply (wr_byte _ _ _ _ _ W1).
    + replace ((idx + 1) * 32) with (off + nlen part) by lia.
      apply poke_ext. now apply (wr_byte _ _ _ _ _ W1).
Qed.

(* ------------------------------------------------------------------------------------ *)
(** * Variables through the API *)

Lemma var_range_some a id n size segs : var_range a id n = Some (size, segs) ->
  exists v, layout_get (ac_layout a) id = Some v /\ size = rv_size v /\ rv_size v <= n
            /\ var_segments (rv_offset v) (rv_size v) = Some segs /\ rv_offset v + rv_size v <= u32_max.
Proof.
  unfold var_range. destruct (layout_get (ac_layout a) id) as [v|] eqn:E; cbn [obind]; [|discriminate].
  destruct (N.ltb_spec n (rv_size v)); [discriminate|].
  destruct (N.ltb_spec u32_max (rv_offset v + rv_size v)); [discriminate|].
  destruct (var_segments _ _) as [s|] eqn:Es; cbn [obind]; [|discriminate].
  intros [= <- <-]. exists v. repeat split; auto.
Qed.

Lemma var_range_intro a id n v : layout_get (ac_layout a) id = Some v ->
  0 < rv_size v -> rv_offset v + rv_size v <= u32_max -> rv_size v <= n ->
  exists segs, var_range a id n = Some (rv_size v, segs) /\ var_segments (rv_offset v) (rv_size v) = Some segs.
Proof.
  intros H H0 H1 H2. unfold var_range. rewrite H. cbn [obind].
  replace (n <? rv_size v) with false by lia.
  replace (u32_max <? rv_offset v + rv_size v) with false by lia.
  unfold var_segments. replace (rv_size v =? 0) with false by lia. cbn [obind]. eauto.
Qed.

Lemma set_var_cases e a id v g : collision_free e -> array_wf 20 (ac_addr a) -> typed e g -> bytes_ok v ->
  (set_var_bytes e a id v g = (Panic, g))
  \/ exists r g', layout_get (ac_layout a) id = Some r /\ rv_size r <= nlen v
       /\ set_var_bytes e a id v g = (Ok tt, g')
       /\ wrote e (ac_addr a) g g' (poke (byte_at e g (ac_addr a)) (rv_offset r) (firstn (N.to_nat (rv_size r)) v)).
Proof.
  intros HC Ha HT Hv. unfold set_var_bytes, gbind.
  destruct (var_range a id (nlen v)) as [[size segs]|] eqn:E; [|left; reflexivity].
  right. apply var_range_some in E. destruct E as (r & Hr & -> & Hl & Hs & Ho). cbn [gsome].
  unfold gret.
  destruct (var_segments_write e (ac_addr a) g _ _ _ (firstn (N.to_nat (rv_size r)) v) HC Ha HT Hs Ho) as (g' & Hw & W).
  - unfold nlen in *. rewrite firstn_length. lia.
  - now apply firstn_ok.
  - exists r, g'. auto.
Qed.

Lemma get_var_eq e a id buf g v : array_wf 20 (ac_addr a) -> typed e g ->
  layout_get (ac_layout a) id = Some v -> 0 < rv_size v -> rv_offset v + rv_size v <= u32_max ->
  rv_size v <= nlen buf ->
  get_var e a id buf g
  = (Ok (map (byte_at e g (ac_addr a)) (range (rv_offset v) (N.to_nat (rv_size v)))
         ++ skipn (N.to_nat (rv_size v)) buf), g).
Proof.
  intros Ha HT Hl H0 Ho Hb. unfold get_var, gbind.
  destruct (var_range_intro a id (nlen buf) v Hl H0 Ho Hb) as (segs & -> & Hs). cbn [gsome gret].
  rewrite (var_segments_read e g _ _ _ _ HT Ha Hs Ho). reflexivity.
Qed.

Lemma get_var_vec_eq e a id g v : array_wf 20 (ac_addr a) -> typed e g ->
  layout_get (ac_layout a) id = Some v -> 0 < rv_size v -> rv_offset v + rv_size v <= u32_max ->
  get_var_vec e a id g
  = (Ok (map (byte_at e g (ac_addr a)) (range (rv_offset v) (N.to_nat (rv_size v)))), g).
Proof.
  intros Ha HT Hl H0 Ho. unfold get_var_vec, gbind. rewrite Hl. cbn [gsome gret].
  rewrite (get_var_eq e a id _ g v) by (auto; unfold nlen; rewrite repeat_length; lia).
  rewrite skipn_all2 by (rewrite repeat_length; lia). now rewrite app_nil_r.
Qed.

(** Reading a variable depends only on the bytes of the account's memory. *)
Lemma get_var_same e a id buf g g' : array_wf 20 (ac_addr a) -> typed e g -> typed e g' ->
  (forall v, layout_get (ac_layout a) id = Some v -> forall i, covers v i -> i <= u32_max ->
     byte_at e g' (ac_addr a) i = byte_at e g (ac_addr a) i) ->
  fst (get_var e a id buf g') = fst (get_var e a id buf g).
Proof.
  intros Ha HT HT' H. unfold get_var, gbind.
  destruct (var_range a id (nlen buf)) as [[size segs]|] eqn:E; [|reflexivity]. cbn [gsome gret].
  apply var_range_some in E. destruct E as (r & Hr & -> & Hl & Hs & Ho).
  rewrite (var_segments_read e g _ _ _ _ HT Ha Hs Ho), (var_segments_read e g' _ _ _ _ HT' Ha Hs Ho). cbn.
  do 2 f_equal. apply map_ext_in. intros i Hi. apply range_in in Hi. apply (H r Hr); [unfold covers|]; lia.
Qed.

Lemma get_var_vec_same e a id g g' : array_wf 20 (ac_addr a) -> typed e g -> typed e g' ->
  (forall v, layout_get (ac_layout a) id = Some v -> forall i, covers v i -> i <= u32_max ->
     byte_at e g' (ac_addr a) i = byte_at e g (ac_addr a) i) ->
  fst (get_var_vec e a id g') = fst (get_var_vec e a id g).
Proof.
  intros Ha HT HT' H. unfold get_var_vec, gbind.
  destruct (layout_get (ac_layout a) id) as [v|] eqn:E; [|reflexivity]. cbn [gsome gret].
  apply get_var_same; auto. rewrite E. exact H.
Qed.

Lemma poke_out f off v i : i < off \/ off + nlen v <= i -> poke f off v i = f i.
Proof. intros H. unfold poke. replace (_ && _) with false by lia. reflexivity. Qed.

Lemma poke_range f off v : map (poke f off v) (range off (length v)) = v.
Proof.
  apply nth_error_ext. intros n. rewrite nth_error_map. unfold range. rewrite nth_error_map.
  destruct (Nat.lt_ge_cases n (length v)) as [H|H].
  - rewrite (nth_error_nth' (seq 0 (length v)) 0%nat) by (rewrite seq_length; lia).
    rewrite seq_nth by lia. cbn [option_map plus]. rewrite (nth_error_nth' v 0) by lia. f_equal.
    unfold poke, nlen. replace (_ && _) with true by lia. f_equal. lia.
  - assert (nth_error (seq 0 (length v)) n = None) as -> by (apply nth_error_None; rewrite seq_length; lia).
    symmetry. now apply nth_error_None.
Qed.

Lemma wrote_byte_other e a b g g' f i : i / 32 <= u32_max -> array_wf 20 a -> array_wf 20 b -> a <> b -> wrote e a g g' f ->
  byte_at e g' b i = byte_at e g b i.
Proof.
  intros Hi Ha Hb Hab W. unfold byte_at, seg.
  pose proof (wr_other _ _ _ _ _ W (TSeg b (i / 32)) (conj Hb Hi)) as H. cbn [key_of] in H. rewrite H; auto.
  intros n [= E _]. auto.
Qed.

Lemma decode_same {A} e (d : decoder A) k g g' :
  gs_layer_param g' = gs_layer_param g -> st_db (gs_storage g') = st_db (gs_storage g) ->
  st_next_id (gs_storage g') = st_next_id (gs_storage g) -> cur e g' k = cur e g k ->
  fst (read_and_decode e d k g') = fst (read_and_decode e d k g).
Proof.
  intros H1 H2 H3 H4. unfold read_and_decode, gbind. rewrite H1.
  destruct (gs_layer_param g) as [l|]; cbn [option_map].
  - unfold gs_get, get, get_by_hash. rewrite H2, H3. destruct (_ <? _)%Z; [|reflexivity]. cbn [lift].
    destruct (sql_get_historical _ _ _) as [bs|]; [|reflexivity].
    destruct (d bs) as [[x r]| |]; reflexivity.
  - rewrite !gs_get_now, H4. destruct (cur e g k) as [bs|]; [|reflexivity].
    destruct (d bs) as [[x r]| |]; reflexivity.
Qed.

Lemma bind_read_same {A B} (m : gm A) (f : A -> B) g g' :
  fst (m g') = fst (m g) -> fst ((let! x := m in gret (f x)) g') = fst ((let! x := m in gret (f x)) g).
Proof. unfold gbind. destruct (m g) as [[|? |] ?], (m g') as [[|? |] ?]; cbn; congruence. Qed.

Lemma fields_same e b g g' :
  gs_layer_param g' = gs_layer_param g -> st_db (gs_storage g') = st_db (gs_storage g) ->
  st_next_id (gs_storage g') = st_next_id (gs_storage g) ->
  cur e g' (key_immutable b) = cur e g (key_immutable b) ->
  cur e g' (key_mutable b) = cur e g (key_mutable b) ->
  fields_of e b g' = fields_of e b g.
Proof.
  intros H1 H2 H3 H4 H5. unfold fields_of, account_name, account_template, account_balance, account_counter.
  rewrite !(bind_read_same _ _ g g') by (apply decode_same; auto). reflexivity.
Qed.

Lemma sections_same e t g g' :
  gs_layer_param g' = gs_layer_param g -> st_db (gs_storage g') = st_db (gs_storage g) ->
  st_next_id (gs_storage g') = st_next_id (gs_storage g) ->
  cur e g' (key_core t) = cur e g (key_core t) ->
  cur e g' (key_noncore t) = cur e g (key_noncore t) ->
  fst (template_sections e t g') = fst (template_sections e t g).
Proof.
  intros H1 H2 H3 H4 H5. unfold template_sections, gbind.
  pose proof (decode_same e (dec_sections None) (key_core t) g g' H1 H2 H3 H4) as E1.
  pose proof (decode_same e (dec_sections None) (key_noncore t) g g' H1 H2 H3 H5) as E2.
  pose proof (reads_decode e (dec_sections None) (key_core t) g) as R1.
  pose proof (reads_decode e (dec_sections None) (key_core t) g') as R2.
  destruct (read_and_decode e (dec_sections None) (key_core t) g) as [[c|?|] g1],
    (read_and_decode e (dec_sections None) (key_core t) g') as [[c'|?|] g1'];
    cbn [fst snd] in *; try congruence; subst.
  injection E1 as ->.
  destruct (read_and_decode e (dec_sections None) (key_noncore t) g) as [[c'|?|] ?],
    (read_and_decode e (dec_sections None) (key_noncore t) g') as [[c''|?|] ?];
    cbn [fst snd gret] in *; try congruence.
Qed.

(* ------------------------------------------------------------------------------------ *)
(** * Reachable states *)

Lemma typed_gop e o g : iterates e -> collision_free e -> gop_wf o -> typed e g -> typed e (run_gop e o g).
Proof.
  intros HI HC Hw HT. destruct o; cbn [run_gop gop_wf] in *.
  - destruct Hw as (? & ? & ?). now apply typed_template.
  - destruct Hw as (? & ? & ? & ?). unfold account_create_stub.
    refine (preserves_bind (typed e) _ _ _ _ g HT); [|intros; apply preserves_ret].
    apply typed_write_account; auto. split; [reflexivity|]. apply bytes_okb_ok. reflexivity.
  - destruct Hw as (? & ? & ? & ? & ?). unfold account_create.
    refine (preserves_bind (typed e) _ _ _ _ g HT); [apply preserves_reads, reads_layout|intros].
    apply preserves_bind; [|intros; apply preserves_ret]. now apply typed_write_account.
  - destruct Hw as (? & ?).
    destruct (set_var_cases e a id v g) as [->|(r & g' & _ & _ & -> & W)]; auto. apply W.
  - destruct Hw. apply typed_replace_mut; auto. intros d [? ?]. split; auto.
  - destruct Hw. apply typed_replace_mut; auto. intros d [? ?]. split; auto.
  - cbn. now apply checkpoint_all.
  - unfold gs_commit, gs_commit_raw, gbind.
    pose proof (commit_all (good e) e (gs_storage g) HI HT) as H.
    destruct (commit e (gs_storage g)) as [[[id fp]|er|] s]; cbn in *; auto.
    destruct (layer_of id); exact H.
  - cbn. now apply rollback_all.
  - unfold gs_rewind. destruct (l <? 2 ^ 63); auto.
    pose proof (rewind_all (good e) (gs_storage g) (Z.of_N l) HT) as H.
    destruct (rewind _ _) as [o s]. exact H.
  - exact HT.
Qed.

Lemma typed_create_templates e ts : collision_free e ->
  Forall (fun t => array_wf 20 (fst t) /\ sections_wf (snd t)) ts ->
  preserves (typed e) (create_templates e ts).
Proof.
  intros HC H. induction H as [|[addr l] ts [Ha Hl] _ IH]; cbn [create_templates]; [apply preserves_ret|].
  cbn [fst snd] in *. destruct (remove_noncore l) as [[a b]|] eqn:E; cbn [gsome].
  - intros g Hg. unfold gbind at 1, gret. revert g Hg. apply preserves_bind; auto.
    apply remove_noncore_perm in E. apply (sections_wf_perm _ _ E) in Hl. apply sections_wf_app in Hl.
    apply typed_template; tauto.
  - intros g Hg. exact Hg.
Qed.

Lemma typed_new e ts g : iterates e -> collision_free e ->
  Forall (fun t => array_wf 20 (fst t) /\ sections_wf (snd t)) ts ->
  gs_new e empty_db ts = Some g -> typed e g.
Proof.
  intros HI HC Hts. unfold gs_new.
  assert (H0 : forall s, open_db empty_db = Ok s -> typed e (mkGstate s None)).
  { intros s H. injection H as <-. repeat split; cbn; constructor. }
  destruct (open_db empty_db) as [s| |]; try discriminate. specialize (H0 s eq_refl).
  assert (H1 : typed e (snd (init_genesis e ts (mkGstate s None)))).
  { unfold init_genesis. destruct (genesis_fingerprint _); auto. unfold gbind.
    pose proof (typed_create_templates e ts HC Hts _ H0) as HT.
    destruct (create_templates e ts _) as [[|?|] g1]; cbn [snd] in *; auto.
    cbn [gs_checkpoint]. unfold gs_commit_raw. cbn [gs_storage].
    pose proof (commit_all (good e) e _ HI (checkpoint_all (good e) e _ HI HT)) as HT2.
    destruct (commit e _) as [[[id fp]|?|] s']; cbn [snd lift] in *; auto.
    destruct (id =? -1)%Z; exact HT2. }
  destruct (init_genesis _ _ _) as [[|?|] g']; try discriminate.
  intros [= <-]. exact H1.
Qed.

Lemma reachable_typed e g : iterates e -> collision_free e -> gs_reachable e g -> typed e g.
Proof.
  intros HI HC. induction 1; [eapply typed_new; eauto|]. apply typed_gop; auto.
Qed.

(** ** The storage underneath goes through a legal history *)
Definition no_rewind (ops : list op) : Prop :=
  Forall (fun o => match o with Rewind _ => False | _ => True end) ops.
Lemma no_rewind_above b ops : no_rewind ops -> rewinds_above b ops.
Proof. apply Forall_impl. now intros []. Qed.

Definition emits {A} (e : env) (m : gm A) : Prop := forall g, exists ops,
  no_rewind ops /\ gs_storage (snd (m g)) = snd (exec_all e ops (gs_storage g)).

Lemma exec_all_app e o1 o2 s :
  snd (exec_all e (o1 ++ o2) s) = snd (exec_all e o2 (snd (exec_all e o1 s))).
Proof.
  revert s. induction o1 as [|o o1 IH]; intros s; auto. cbn [app exec_all].
  destruct (exec e o s) as [r s1]. specialize (IH s1).
  destruct (exec_all e (o1 ++ o2) s1), (exec_all e o1 s1). cbn in *. exact IH.
Qed.

Lemma emits_bind {A B} e (m : gm A) (k : A -> gm B) :
  emits e m -> (forall a, emits e (k a)) -> emits e (gbind m k).
Proof.
  intros Hm Hk g. unfold gbind. destruct (Hm g) as (ops & Ho & He).
  destruct (m g) as [[a|er|] g']; cbn [snd] in *; eauto.
  destruct (Hk a g') as (ops' & Ho' & He'). exists (ops ++ ops'). split.
  - now apply Forall_app.
  - now rewrite exec_all_app, <- He.
Qed.
Lemma emits_reads {A} e (m : gm A) : reads m -> emits e m.
Proof. intros H g. exists []. split; [constructor|]. now rewrite H. Qed.
Lemma emits_upsert e k v : emits e (gs_upsert e k v).
Proof. intros g. exists [Upsert (env_hash e k) v]. split; [repeat constructor|reflexivity]. Qed.
Lemma emits_write {A} e (enc : encoder A) x k : emits e (encode_and_write e enc x k).
Proof. apply emits_bind; [apply emits_reads, reads_some|intros; apply emits_upsert]. Qed.
Lemma emits_replace {A} e (d : decoder A) enc k f : emits e (replace e d enc k f).
Proof. apply emits_bind; [apply emits_reads, reads_decode|intros; apply emits_write]. Qed.
Lemma emits_segments e a segs v : emits e (write_segments e a segs v).
Proof.
  revert v. induction segs; intros v; cbn [write_segments]; [apply emits_reads, reads_ret|].
  apply emits_bind; [apply emits_reads, reads_segment|intros].
  apply emits_bind; [apply emits_upsert|auto].
Qed.
Lemma emits_account e addr name taddr b c : emits e (write_account e addr name taddr b c).
Proof. apply emits_bind; intros; apply emits_write. Qed.
Lemma emits_template e a x y : emits e (template_create e a x y).
Proof. apply emits_bind; intros; apply emits_write. Qed.
Lemma emits_templates e ts : emits e (create_templates e ts).
Proof.
  induction ts as [|[a l] ts IH]; cbn [create_templates]; [apply emits_reads, reads_ret|].
  apply emits_bind; [apply emits_reads, reads_some|]. intros [x y].
  apply emits_bind; [apply emits_template|auto].
Qed.
Lemma emits_checkpoint e : emits e (gs_checkpoint e).
Proof. intros g. exists [Checkpoint]. split; [repeat constructor|reflexivity]. Qed.
Lemma emits_commit_raw e : emits e (gs_commit_raw e).
Proof.
  intros g. exists [Commit]. split; [repeat constructor|]. unfold gs_commit_raw. cbn [exec_all exec].
  destruct (commit e (gs_storage g)) as [[[i f]|[|]|] s]; reflexivity.
Qed.
Lemma emits_commit e : emits e (gs_commit e).
Proof.
  apply emits_bind; [apply emits_commit_raw|]. intros [i f]. apply emits_bind; [apply emits_reads, reads_some|].
  intros. apply emits_reads, reads_ret.
Qed.

Lemma emits_gop e o g : exists ops,
  (forall b, (match o with GRewind l => b <= Z.of_N l | _ => True end)%Z -> rewinds_above b ops) /\
  gs_storage (run_gop e o g) = snd (exec_all e ops (gs_storage g)).
Proof.
  assert (X : forall {A} (m : gm A), emits e m -> exists ops,
     (forall b, True -> rewinds_above b ops) /\ gs_storage (snd (m g)) = snd (exec_all e ops (gs_storage g))).
  { intros A m H. destruct (H g) as (ops & H1 & H2). exists ops. split; auto.
    intros. now apply no_rewind_above. }
  destruct o; cbn [run_gop]; try apply X.
  - apply emits_template.
  - apply emits_bind; [apply emits_account|intros; apply emits_reads, reads_ret].
  - apply emits_bind; [apply emits_reads, reads_layout|intros].
    apply emits_bind; [apply emits_account|intros; apply emits_reads, reads_ret].
  - apply emits_bind; [apply emits_reads, reads_some|intros [? ?]]. apply emits_segments.
  - unfold set_balance, set_counter. apply emits_replace.
  - unfold set_balance, set_counter. apply emits_replace.
  - apply emits_checkpoint.
  - apply emits_commit.
  - intros g'. exists [Rollback]. split; [repeat constructor|reflexivity].
  - unfold gs_rewind. destruct (l <? 2 ^ 63); [|exists []; split; [constructor|reflexivity]].
    exists [Rewind (Z.of_N l)]. split; [intros; repeat constructor; auto|]. cbn [exec_all exec].
    destruct (rewind _ _) as [[|[|]|] s]; reflexivity.
  - exists []. split; [constructor|reflexivity].
Qed.

Lemma gs_reachable_storage e g : gs_reachable e g -> reachable e (gs_storage g).
Proof.
  induction 1 as [ts g _ H|o g _ (ops & Ho & He) _].
  - unfold gs_new in H. destruct (open_db empty_db) as [s| |] eqn:E; try discriminate.
    assert (Hs : s = fresh) by (unfold fresh; now rewrite E). subst s.
    assert (HE : exists ops, no_rewind ops /\
              gs_storage (snd (init_genesis e ts (mkGstate fresh None))) = snd (exec_all e ops fresh)).
    { unfold init_genesis. destruct (genesis_fingerprint _); [exists []; split; [constructor|reflexivity]|].
      assert (EM : emits e (let! _ := create_templates e ts in let! _ := gs_checkpoint e in
                       let! (id, _) := gs_commit_raw e in if (id =? -1)%Z then gret tt else gpanic)).
      { apply emits_bind; [apply emits_templates|intros].
        apply emits_bind; [apply emits_checkpoint|intros].
        apply emits_bind; [apply emits_commit_raw|intros [id f]].
        destruct (id =? -1)%Z; apply emits_reads; [apply reads_ret|apply reads_panic]. }
      exact (EM (mkGstate fresh None)). }
    destruct (init_genesis _ _ _) as [[|?|] g']; try discriminate. injection H as <-.
    destruct HE as (ops & ? & ?). exists ops. split; auto. now apply no_rewind_above.
  - destruct (emits_gop e o g) as (ops' & Ho' & He'). exists (ops ++ ops'). split.
    { apply Forall_app. split; auto. apply Ho'. destruct o; auto. lia. }
    rewrite exec_all_app, He. auto.
Qed.

(* ------------------------------------------------------------------------------------ *)
(** * Effects of the operations on the current contents *)

(** [g'] differs from [g] only in uncommitted writes to the keys in [P]. *)
Record only (e : env) (P : tkey -> Prop) (g g' : gstate) : Prop := {
  on_param : gs_layer_param g' = gs_layer_param g;
  on_db : st_db (gs_storage g') = st_db (gs_storage g);
  on_next : st_next_id (gs_storage g') = st_next_id (gs_storage g);
  on_cur : forall t, tkey_wf t -> ~ P t -> cur e g' (key_of t) = cur e g (key_of t)
}.

Lemma only_refl e P g : only e P g g.
Proof. constructor; auto. Qed.
Lemma only_trans e P g1 g2 g3 : only e P g1 g2 -> only e P g2 g3 -> only e P g1 g3.
Proof. intros [A B C D] [A' B' C' D']. constructor; try congruence. intros. rewrite D' by auto. auto. Qed.
Lemma only_weaken e (P Q : tkey -> Prop) g g' : (forall t, P t -> Q t) -> only e P g g' -> only e Q g g'.
Proof. intros H [A B C D]. constructor; auto. Qed.

Lemma wrote_only e a g g' f : wrote e a g g' f -> only e (fun t => exists n, t = TSeg a n) g g'.
Proof.
  intros [A B C D (d & E)]. constructor; auto; try (now rewrite E).
  intros t Ht Hn. apply C; auto. intros n ->. apply Hn. eauto.
Qed.

Lemma only_upsert e t v g : collision_free e -> tkey_wf t ->
  only e (fun u => u = t) g (snd (gs_upsert e (key_of t) v g))
  /\ cur e (snd (gs_upsert e (key_of t) v g)) (key_of t) = Some v.
Proof.
  intros HC Ht. split.
  - constructor; auto. intros u Hu Hn. rewrite cur_upsert; [|auto|now apply tkey_storage..].
    rewrite beqb_neq; auto. intros H. apply key_of_inj in H; auto.
  - rewrite cur_upsert; [|auto|now apply tkey_storage..]. now rewrite beqb_refl.
Qed.

Lemma write_effect {A} e t (enc : encoder A) x bs g : collision_free e -> tkey_wf t -> enc x = Some bs ->
  exists g', encode_and_write e enc x (key_of t) g = (Ok tt, g')
    /\ only e (fun u => u = t) g g' /\ cur e g' (key_of t) = Some bs.
Proof.
  intros HC Ht E. unfold encode_and_write, gbind. rewrite E. cbn [gsome gret].
  eexists. split; [reflexivity|]. now apply only_upsert.
Qed.

Lemma only_fields e P b g g' : only e P g g' -> array_wf 20 b -> ~ P (TImm b) -> ~ P (TMut b) ->
  fields_of e b g' = fields_of e b g.
Proof.
  intros [A B C D] Hb H1 H2. apply fields_same; auto.
  - apply (D (TImm b)); auto. now split.
  - apply (D (TMut b)); auto. now split.
Qed.
Lemma only_sections e P b g g' : only e P g g' -> array_wf 20 b -> ~ P (TCore b) -> ~ P (TNon b) ->
  fst (template_sections e b g') = fst (template_sections e b g).
Proof.
  intros [A B C D] Hb H1 H2. apply sections_same; auto.
  - apply (D (TCore b)); auto. now split.
  - apply (D (TNon b)); auto. now split.
Qed.
Lemma only_byte e P b g g' i : only e P g g' -> array_wf 20 b -> i <= u32_max ->
  (forall n, ~ P (TSeg b n)) -> byte_at e g' b i = byte_at e g b i.
Proof.
  intros [A B C D] Hb Hi H. unfold byte_at, seg.
  assert (i / 32 <= u32_max) by (apply N.div_le_upper_bound; lia).
  pose proof (D (TSeg b (i / 32)) (conj Hb H0) (H _)) as E. cbn [key_of] in E. now rewrite E.
Qed.
Lemma only_var e P a g g' id buf : only e P g g' -> typed e g -> typed e g' -> array_wf 20 (ac_addr a) ->
  (forall n, ~ P (TSeg (ac_addr a) n)) ->
  fst (get_var e a id buf g') = fst (get_var e a id buf g).
Proof. intros HO HT HT' Ha H. apply get_var_same; auto. intros. eapply only_byte; eauto. Qed.
Lemma only_var_vec e P a g g' id : only e P g g' -> typed e g -> typed e g' -> array_wf 20 (ac_addr a) ->
  (forall n, ~ P (TSeg (ac_addr a) n)) ->
  fst (get_var_vec e a id g') = fst (get_var_vec e a id g).
Proof. intros HO HT HT' Ha H. apply get_var_vec_same; auto. intros. eapply only_byte; eauto. Qed.

(** Reading typed entries. *)
Lemma read_now_data e a g : gs_layer_param g = None -> forall d bs, account_data_wf d ->
  enc_account_data d = Some bs -> cur e g (key_immutable a) = Some bs ->
  read_and_decode e dec_account_data (key_immutable a) g = (Ok d, g).
Proof.
  intros HP d bs Hd E HC. unfold read_and_decode, gbind. rewrite HP. cbn [option_map].
  rewrite gs_get_now, HC. destruct (account_data_rt d Hd) as (bs' & E' & D). rewrite E in E'.
  apply Some_inj in E'. subst bs'. specialize (D []). rewrite app_nil_r in D. now rewrite D.
Qed.
Lemma read_now_mut e a g : gs_layer_param g = None -> forall d bs, account_mut_wf d ->
  enc_account_mut d = Some bs -> cur e g (key_mutable a) = Some bs ->
  read_and_decode e dec_account_mut (key_mutable a) g = (Ok d, g).
Proof.
  intros HP d bs Hd E HC. unfold read_and_decode, gbind. rewrite HP. cbn [option_map].
  rewrite gs_get_now, HC. destruct (account_mut_rt d Hd) as (bs' & E' & D). rewrite E in E'.
  apply Some_inj in E'. subst bs'. specialize (D []). rewrite app_nil_r in D. now rewrite D.
Qed.
Lemma read_now_sections e k g : gs_layer_param g = None -> forall l bs, sections_wf l ->
  enc_sections l = Some bs -> cur e g k = Some bs ->
  read_and_decode e (dec_sections None) k g = (Ok l, g).
Proof.
  intros HP l bs Hl E HC. unfold read_and_decode, gbind. rewrite HP. cbn [option_map].
  rewrite gs_get_now, HC. now rewrite (sections_dec l bs).
Qed.
Lemma read_now_none {A} e (d : decoder A) k g : gs_layer_param g = None -> cur e g k = None ->
  read_and_decode e d k g = (Err GNotFound, g).
Proof. intros HP HC. unfold read_and_decode, gbind. rewrite HP. cbn [option_map]. now rewrite gs_get_now, HC. Qed.

(** What [read_and_decode] finds in a typed state. *)
Lemma read_mut_cases e a g : typed e g -> array_wf 20 a -> gs_layer_param g = None ->
  (exists d bs, account_mut_wf d /\ enc_account_mut d = Some bs /\ cur e g (key_mutable a) = Some bs
     /\ read_and_decode e dec_account_mut (key_mutable a) g = (Ok d, g))
  \/ (cur e g (key_mutable a) = None
      /\ read_and_decode e dec_account_mut (key_mutable a) g = (Err GNotFound, g)).
Proof.
  intros HT Ha HP. destruct (cur e g (key_mutable a)) as [bs|] eqn:E.
  - destruct (typed_cur e g (TMut a) bs HT (conj Ha I) E) as (d & Hd & Ed).
    left. exists d, bs. repeat split; try apply Hd; auto. eapply read_now_mut; eauto.
  - right. split; auto. now apply read_now_none.
Qed.
Lemma read_data_cases e a g : typed e g -> array_wf 20 a -> gs_layer_param g = None ->
  (exists d bs, account_data_wf d /\ enc_account_data d = Some bs /\ cur e g (key_immutable a) = Some bs
     /\ read_and_decode e dec_account_data (key_immutable a) g = (Ok d, g))
  \/ (cur e g (key_immutable a) = None
      /\ read_and_decode e dec_account_data (key_immutable a) g = (Err GNotFound, g)).
Proof.
  intros HT Ha HP. destruct (cur e g (key_immutable a)) as [bs|] eqn:E.
  - destruct (typed_cur e g (TImm a) bs HT (conj Ha I) E) as (d & Hd & Ed).
    left. exists d, bs. repeat split; try apply Hd; auto. eapply read_now_data; eauto.
  - right. split; auto. now apply read_now_none.
Qed.

(** ** The operations *)
Lemma write_account_effect e addr name taddr b c g : collision_free e -> typed e g ->
  array_wf 20 addr -> string_wf 255 name -> array_wf 20 taddr -> uint_wf 64 b -> uint_wf 128 c ->
  exists g', write_account e addr name taddr b c g = (Ok tt, g')
    /\ typed e g' /\ only e (fun t => t = TImm addr \/ t = TMut addr) g g'
    /\ (gs_layer_param g = None -> fields_of e addr g' = (Ok name, Ok taddr, Ok b, Ok c)).
Proof.
  intros HC HT Ha Hn Ht Hb Hc.
  pose proof (typed_write_account e addr name taddr b c HC Ha Hn Ht Hb Hc g HT) as HT'.
  unfold write_account, gbind in *.
  destruct (account_data_rt (mkAccountData name taddr)) as (bs1 & E1 & _); [now split|].
  destruct (account_mut_rt (mkAccountMut b c)) as (bs2 & E2 & _); [now split|].
  destruct (write_effect e (TImm addr) enc_account_data _ bs1 g HC (conj Ha I) E1) as (g1 & W1 & O1 & C1).
  cbn [key_of] in W1, C1. rewrite W1 in *.
  destruct (write_effect e (TMut addr) enc_account_mut _ bs2 g1 HC (conj Ha I) E2) as (g2 & W2 & O2 & C2).
  cbn [key_of] in W2, C2. rewrite W2 in *. cbn [snd] in HT'.
  exists g2. split; [reflexivity|]. split; auto. split.
  - eapply only_trans; [eapply only_weaken; [|exact O1]|eapply only_weaken; [|exact O2]]; cbn; auto.
  - intros HP.
    assert (HP2 : gs_layer_param g2 = None) by (rewrite (on_param _ _ _ _ O2), (on_param _ _ _ _ O1); auto).
    assert (C1' : cur e g2 (key_immutable addr) = Some bs1).
    { rewrite <- C1. apply (on_cur _ _ _ _ O2 (TImm addr)); [now split|discriminate]. }
    unfold fields_of, account_name, account_template, account_balance, account_counter, gbind.
    rewrite (read_now_data e addr g2 HP2 (mkAccountData name taddr) bs1); auto; [|now split].
    rewrite (read_now_mut e addr g2 HP2 (mkAccountMut b c) bs2); auto. now split.
Qed.

Lemma replace_mut_effect e addr f g : collision_free e -> typed e g -> array_wf 20 addr ->
  gs_layer_param g = None -> (forall d, account_mut_wf d -> account_mut_wf (f d)) ->
  (exists d g', read_and_decode e dec_account_mut (key_mutable addr) g = (Ok d, g)
     /\ account_mut_wf d
     /\ replace e dec_account_mut enc_account_mut (key_mutable addr) f g = (Ok tt, g')
     /\ typed e g' /\ only e (fun t => t = TMut addr) g g'
     /\ read_and_decode e dec_account_mut (key_mutable addr) g' = (Ok (f d), g'))
  \/ (read_and_decode e dec_account_mut (key_mutable addr) g = (Err GNotFound, g)
      /\ replace e dec_account_mut enc_account_mut (key_mutable addr) f g = (Err GNotFound, g)).
Proof.
  intros HC HT Ha HP Hf.
  pose proof (typed_replace_mut e addr f HC Ha Hf g HT) as HT'.
  destruct (read_mut_cases e addr g HT Ha HP) as [(d & bs & Hd & Ed & Hc & Hr)|[Hc Hr]].
  - left. exists d. destruct (account_mut_rt (f d) (Hf d Hd)) as (bs' & E' & _).
    destruct (write_effect e (TMut addr) enc_account_mut (f d) bs' g HC (conj Ha I) E') as (g' & W & O & C).
    unfold replace, gbind in *. rewrite Hr in *. cbn [key_of] in W, C. rewrite W in *. cbn [snd] in HT'.
    exists g'. do 5 (split; [assumption || reflexivity|]).
    eapply read_now_mut; eauto. rewrite (on_param _ _ _ _ O). auto.
  - right. split; auto. unfold replace, gbind. now rewrite Hr.
Qed.

Lemma template_create_effect e addr x y g : collision_free e -> typed e g ->
  array_wf 20 addr -> sections_wf x -> sections_wf y ->
  exists g', template_create e addr x y g = (Ok tt, g')
    /\ typed e g' /\ only e (fun t => t = TCore addr \/ t = TNon addr) g g'
    /\ (gs_layer_param g = None -> template_sections e addr g' = (Ok (merge_sections x y), g')).
Proof.
  intros HC HT Ha Hx Hy.
  pose proof (typed_template e addr x y HC Ha Hx Hy g HT) as HT'.
  unfold template_create, gbind in *.
  destruct (sections_rt x Hx) as (bs1 & E1 & _). destruct (sections_rt y Hy) as (bs2 & E2 & _).
  destruct (write_effect e (TCore addr) enc_sections _ bs1 g HC (conj Ha I) E1) as (g1 & W1 & O1 & C1).
  cbn [key_of] in W1, C1. rewrite W1 in *.
  destruct (write_effect e (TNon addr) enc_sections _ bs2 g1 HC (conj Ha I) E2) as (g2 & W2 & O2 & C2).
  cbn [key_of] in W2, C2. rewrite W2 in *. cbn [snd] in HT'.
  exists g2. split; [reflexivity|]. split; auto. split.
  - eapply only_trans; [eapply only_weaken; [|exact O1]|eapply only_weaken; [|exact O2]]; cbn; auto.
  - intros HP.
    assert (HP2 : gs_layer_param g2 = None) by (rewrite (on_param _ _ _ _ O2), (on_param _ _ _ _ O1); auto).
    assert (C1' : cur e g2 (key_core addr) = Some bs1).
    { rewrite <- C1. apply (on_cur _ _ _ _ O2 (TCore addr)); [now split|discriminate]. }
    unfold template_sections, gbind.
    rewrite (read_now_sections e (key_core addr) g2 HP2 x bs1); auto.
    rewrite (read_now_sections e (key_noncore addr) g2 HP2 y bs2); auto.
Qed.

(** Declared variables. *)
Lemma declared_get first sizes l i s : from_byte_sizes first sizes = Some l -> nth_error sizes i = Some s ->
  exists v, layout_get l (first + N.of_nat i) = Some v /\ declared_var first sizes i v /\ rv_size v = s
            /\ rv_offset v + rv_size v <= u32_max.
Proof.
  intros H Hs. destruct (layout_get_declared first sizes l i H) as (v & Hv & D).
  { apply nth_error_Some. congruence. }
  exists v. split; auto. split; auto. destruct D as (D1 & D2 & D3). rewrite Hs in D2.
  injection D2 as D2. split; auto.
  assert (B : sizes = [] \/ (first + nlen sizes - 1 <= u32_max /\ total sizes <= u32_max)).
  { apply from_byte_sizes_defined. eauto. }
  destruct B as [->|[_ B]]; [destruct i; discriminate|].
  rewrite D3, <- D2. pose proof (total_firstn_S sizes i s Hs) as E.
  pose proof (total_app (firstn (S i) sizes) (skipn (S i) sizes)) as T. rewrite firstn_skipn in T. lia.
Qed.

Lemma set_then_get e g a first sizes i s value :
  iterates e -> collision_free e -> gs_reachable e g -> array_wf 20 (ac_addr a) ->
  from_byte_sizes first sizes = Some (ac_layout a) ->
  nth_error sizes i = Some s -> 0 < s -> s <= nlen value -> bytes_ok value ->
  exists g', set_var_bytes e a (first + N.of_nat i) value g = (Ok tt, g')
    /\ gs_reachable e g'
    /\ get_var_vec e a (first + N.of_nat i) g' = (Ok (firstn (N.to_nat s) value), g').
Proof.
  intros HI HC HR Ha HL Hs H0 Hlen Hv. pose proof (reachable_typed e g HI HC HR) as HT.
  destruct (declared_get _ _ _ _ _ HL Hs) as (v & Hg & HD & Es & Ho).
  destruct (set_var_cases e a (first + N.of_nat i) value g HC Ha HT Hv) as [HP|(r & g' & Hg' & Hr & HS & W)].
  - exfalso. unfold set_var_bytes, gbind in HP.
    destruct (var_range_intro a (first + N.of_nat i) (nlen value) v Hg) as (segs & E & Hsegs); try lia.
    rewrite E in HP. cbn [gsome gret] in HP.
    destruct (var_segments_write e (ac_addr a) g _ _ _ (firstn (N.to_nat (rv_size v)) value) HC Ha HT Hsegs Ho) as (g' & Hw & _).
    + unfold nlen in *. rewrite firstn_length. lia.
    + now apply firstn_ok.
    + rewrite Hw in HP. discriminate.
  - rewrite Hg in Hg'. injection Hg' as <-. exists g'. split; auto. split.
    + replace g' with (run_gop e (GSetVar a (first + N.of_nat i) value) g) by (cbn; now rewrite HS).
      apply gr_op; auto. now split.
    + rewrite (get_var_vec_eq e a _ g' v) by (auto; try lia; apply W). f_equal. f_equal.
      rewrite <- Es. set (n := N.to_nat (rv_size v)).
      assert (Hn : n = length (firstn n value)).
      { rewrite firstn_length. unfold n, nlen in *. lia. }
      rewrite Hn at 1. erewrite map_ext_in; [apply poke_range|].
      intros j Hj. apply range_in in Hj. rewrite (wr_byte _ _ _ _ _ W); [reflexivity|].
      apply N.div_le_upper_bound; [lia|]. rewrite <- Hn in Hj. unfold n in Hj. lia.
Qed.

Lemma set_isolated e g a first sizes i s value g' :
  iterates e -> collision_free e -> gs_reachable e g -> array_wf 20 (ac_addr a) ->
  from_byte_sizes first sizes = Some (ac_layout a) -> nth_error sizes i = Some s -> bytes_ok value ->
  set_var_bytes e a (first + N.of_nat i) value g = (Ok tt, g') ->
  (forall j, j <> i ->
     fst (get_var_vec e a (first + N.of_nat j) g') = fst (get_var_vec e a (first + N.of_nat j) g))
  /\ (forall b id, array_wf 20 (ac_addr b) -> ac_addr b <> ac_addr a ->
        fst (get_var_vec e b id g') = fst (get_var_vec e b id g))
  /\ (forall addr, array_wf 20 addr -> fields_of e addr g' = fields_of e addr g)
  /\ (forall t, array_wf 20 t -> fst (template_sections e t g') = fst (template_sections e t g)).
Proof.
  intros HI HC HR Ha HL Hs Hv HS. pose proof (reachable_typed e g HI HC HR) as HT.
  destruct (declared_get _ _ _ _ _ HL Hs) as (v & Hg & HD & Es & Ho).
  destruct (set_var_cases e a (first + N.of_nat i) value g HC Ha HT Hv) as [HP|(r & g1 & Hg' & Hr & HS' & W)];
    [congruence|].
  rewrite HS in HS'. injection HS' as <-. rewrite Hg in Hg'. injection Hg' as <-.
  pose proof (wrote_only _ _ _ _ _ W) as HO. pose proof (wr_typed _ _ _ _ _ W) as HT'.
  split; [|split; [|split]].
  - intros j Hj. apply get_var_vec_same; auto. intros u Hu k Hk Hk32.
    rewrite (wr_byte _ _ _ _ _ W) by (apply N.div_le_upper_bound; lia).
    apply poke_out. pose proof (layout_get_spec first sizes _ (first + N.of_nat j) HL) as SP. rewrite Hu in SP.
    destruct SP as (j' & Ej & _ & HDj). assert (j' = j) by lia. subst j'.
    destruct (N.lt_ge_cases k (rv_offset v)); auto.
    destruct (N.lt_ge_cases k (rv_offset v + rv_size v)).
    + exfalso. apply Hj. symmetry. eapply (declared_disjoint first sizes i j v u k); auto. now split.
    + right. unfold nlen in *. rewrite firstn_length. lia.
  - intros b id Hb Hab. eapply only_var_vec; eauto. intros n (m & E). injection E as E _. auto.
  - intros addr Haddr. eapply only_fields; eauto; intros (n & E); discriminate E.
  - intros t Ht. eapply only_sections; eauto; intros (n & E); discriminate E.
Qed.

(* ------------------------------------------------------------------------------------ *)
(** * Reads at a layer *)

Lemma emits_gops e ops g b :
  Forall (fun o => match o with GRewind l => b <= Z.of_N l | _ => True end)%Z ops ->
  exists sops, rewinds_above b sops /\
  gs_storage (run_gops e ops g) = snd (exec_all e sops (gs_storage g)).
Proof.
  intros H. revert g. induction H as [|o ops Ho _ IH]; intros g.
  - exists []. split; [constructor|reflexivity].
  - destruct (emits_gop e o g) as (o1 & H1 & E1). destruct (IH (run_gop e o g)) as (o2 & H2 & E2).
    exists (o1 ++ o2). split; [apply Forall_app; split; [apply (H1 b Ho)|exact H2]|]. 
    change (run_gops e (o :: ops) g) with (run_gops e ops (run_gop e o g)).
    now rewrite E2, E1, exec_all_app.
Qed.

Lemma decode_at {A} e (d : decoder A) k g g' l : l < 2 ^ 63 ->
  get e (gs_storage g') k (Some (Z.of_N l)) = get e (gs_storage g) k None ->
  fst (read_and_decode e d k (at_layer (Some l) g')) = fst (read_and_decode e d k (at_layer None g)).
Proof.
  intros Hl H. unfold read_and_decode, gbind, gs_get. cbn [gs_layer_param at_layer option_map gs_storage].
  unfold as_i64. replace (l <? 2 ^ 63) with true by lia. rewrite H.
  clear H. destruct (get e (gs_storage g) k None) as [[bs|]|?|]; cbn [lift]; try reflexivity. destruct (d bs) as [[? ?]|?|]; reflexivity.
Qed.

Lemma commit_then e g l fp g1 ops : iterates e -> gs_reachable e g ->
  gs_commit e g = (Ok (l, fp), g1) ->
  Forall (fun o => match o with GRewind l' => l <= l' | _ => True end) ops ->
  forall k, get e (gs_storage (run_gops e ops g1)) k (Some (Z.of_N l)) = get e (gs_storage g) k None.
Proof.
  intros HI HR HC HO k. pose proof (gs_reachable_storage e g HR) as HS.
  unfold gs_commit, gs_commit_raw, gbind in HC.
  assert (HD : has_uncommitted_changes (gs_storage g) = false).
  { unfold has_uncommitted_changes. destruct (st_dirty (gs_storage g)) eqn:E; auto.
    unfold commit in HC. rewrite E in HC. discriminate. }
  destruct (commit_spec e _ HI HS HD) as (lz & prev & fp' & s' & _ & Hcm & Hll & Hnow & Hat & _).
  rewrite Hcm in HC. cbn [lift] in HC. unfold layer_of in HC.
  destruct (Z.ltb_spec lz 0); cbn [gsome gpanic gret] in HC; [discriminate|]. injection HC as <- _ <-.
  assert (Hl' : Forall (fun o => match o with GRewind l0 => lz <= Z.of_N l0 | _ => True end)%Z ops).
  { eapply Forall_impl; [|exact HO]. intros []; auto. intros. lia. }
  destruct (emits_gops e ops (mkGstate s' (gs_layer_param g)) lz Hl') as (sops & Hso & Hse).
  rewrite Hse. cbn [gs_storage]. unfold get. rewrite Z2N.id by auto. rewrite <- Hat.
  apply committed_immutable; auto.
  - destruct HS as (o0 & Ho0 & HS). exists (o0 ++ [Commit]). split.
    + apply Forall_app. split; [exact Ho0|repeat constructor].
    + rewrite exec_all_app, HS. cbn [exec_all exec]. rewrite Hcm. reflexivity.
  - unfold last_layer in Hll. destruct (_ <? _)%Z; [|discriminate].
    destruct (layer_fingerprint _ _ _); try discriminate. injection Hll as Hll _. lia.
  - eapply Forall_impl; [|exact Hso]. intros []; auto. lia.
Qed.

Lemma fields_at_layer e g l fp g1 ops addr : iterates e -> gs_reachable e g ->
  gs_commit e g = (Ok (l, fp), g1) -> l < 2 ^ 63 ->
  Forall (fun o => match o with GRewind l' => l <= l' | _ => True end) ops ->
  fields_of e addr (at_layer (Some l) (run_gops e ops g1)) = fields_of e addr (at_layer None g)
  /\ fst (template_sections e addr (at_layer (Some l) (run_gops e ops g1)))
     = fst (template_sections e addr (at_layer None g)).
Proof.
  intros HI HR HC Hl HO. pose proof (commit_then e g l fp g1 ops HI HR HC HO) as H.
  set (g' := run_gops e ops g1) in *. split.
  - unfold fields_of, account_name, account_template, account_balance, account_counter.
    rewrite !(bind_read_same _ _ (at_layer None g) (at_layer (Some l) g')) by (apply decode_at; auto). reflexivity.
  - unfold template_sections, gbind.
    pose proof (decode_at e (dec_sections None) (key_core addr) g g' l Hl (H _)) as E1.
    pose proof (decode_at e (dec_sections None) (key_noncore addr) g g' l Hl (H _)) as E2.
    pose proof (reads_decode e (dec_sections None) (key_core addr) (at_layer None g)) as R1.
    pose proof (reads_decode e (dec_sections None) (key_core addr) (at_layer (Some l) g')) as R2.
    destruct (read_and_decode e (dec_sections None) (key_core addr) (at_layer None g)) as [[c|?|] x1],
      (read_and_decode e (dec_sections None) (key_core addr) (at_layer (Some l) g')) as [[c'|?|] x2];
      cbn [fst snd] in *; try congruence. subst x1 x2. injection E1 as ->.
    destruct (read_and_decode e (dec_sections None) (key_noncore addr) (at_layer None g)) as [[d|?|] x1],
      (read_and_decode e (dec_sections None) (key_noncore addr) (at_layer (Some l) g')) as [[d'|?|] x2];
      cbn [fst snd gret] in *; try congruence.
Qed.
