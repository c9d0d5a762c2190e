(** Lemmas about the layered store: refinement of the table-level model to the log. *)
From Coq Require Import List NArith ZArith Bool Lia Permutation.
From Coq Require Import ZifyBool ZifyNat ZifyN.
From Verif Require Import Base ReceiptModel ReceiptProofs StorageModel StorageSpec.
Import ListNotations.
Open Scope Z_scope.

Lemma beqb_refl k : bytes_eqb k k = true.
Proof. now apply bytes_eqb_spec. Qed.
Lemma beqb_neq a b : a <> b -> bytes_eqb a b = false.
Proof. intros H. destruct (bytes_eqb a b) eqn:E; auto. apply bytes_eqb_spec in E. contradiction. Qed.
Lemma beqb_sym a b : bytes_eqb a b = bytes_eqb b a.
Proof.
  destruct (bytes_eqb a b) eqn:E.
  - apply bytes_eqb_spec in E. subst. now rewrite beqb_refl.
  - destruct (bytes_eqb b a) eqn:E2; auto. apply bytes_eqb_spec in E2. subst. now rewrite beqb_refl in E.
Qed.
Lemma bytes_dec (a b : bytes) : {a = b} + {a <> b}.
Proof. apply list_eq_dec. apply N.eq_dec. Qed.

(** ** Hash maps *)
Lemma ch_get_insert k k' v c : ch_get k (ch_insert k' v c) = if bytes_eqb k k' then Some v else ch_get k c.
Proof.
  induction c as [|[k1 v1] c IH]; cbn; auto.
  destruct (bytes_eqb k' k1) eqn:E1; cbn.
  - apply bytes_eqb_spec in E1. subst k1. destruct (bytes_eqb k k'); auto.
  - rewrite IH. destruct (bytes_eqb k k1) eqn:E2; auto.
    apply bytes_eqb_spec in E2. subst k1. rewrite beqb_sym in E1. now rewrite E1.
Qed.

Lemma ch_insert_keys k v c x : In x (map fst (ch_insert k v c)) <-> x = k \/ In x (map fst c).
Proof.
  induction c as [|[k1 v1] c IH]; cbn; [intuition|].
  destruct (bytes_eqb k k1) eqn:E; cbn.
  - apply bytes_eqb_spec in E. subst. intuition.
  - rewrite IH. intuition.
Qed.

Lemma ch_insert_nodup k v c : NoDup (map fst c) -> NoDup (map fst (ch_insert k v c)).
Proof.
  induction c as [|[k1 v1] c IH]; cbn; intros H.
  - repeat constructor. tauto.
  - inversion H; subst. destruct (bytes_eqb k k1) eqn:E; cbn.
    + apply bytes_eqb_spec in E. subst. now constructor.
    + constructor; auto. rewrite ch_insert_keys. intros [->|Hin]; auto. now rewrite beqb_refl in E.
Qed.

Lemma ch_get_in k v c : NoDup (map fst c) -> (ch_get k c = Some v <-> In (k, v) c).
Proof.
  induction c as [|[k1 v1] c IH]; cbn; intros H; [intuition discriminate|].
  inversion H; subst. destruct (bytes_eqb k k1) eqn:E.
  - apply bytes_eqb_spec in E. subst. split.
    + intros [= ->]. auto.
    + intros [[= ->]|Hin]; auto. exfalso. apply H2. apply in_map_iff. now exists (k1, v).
  - rewrite IH by auto. split; auto. intros [[= -> ->]|]; auto. now rewrite beqb_refl in E.
Qed.

Lemma ch_get_perm c c' k : NoDup (map fst c) -> Permutation c' c -> ch_get k c' = ch_get k c.
Proof.
  intros ND P. assert (ND' : NoDup (map fst c')).
  { apply (Permutation_NoDup (l := map fst c)); auto. apply Permutation_sym. now apply Permutation_map. }
  destruct (ch_get k c) as [v|] eqn:E.
  - apply ch_get_in in E; auto. apply ch_get_in; auto. apply (Permutation_in _ (Permutation_sym P)). exact E.
  - destruct (ch_get k c') as [v|] eqn:E'; auto.
    apply ch_get_in in E'; auto. apply (Permutation_in _ P) in E'. apply ch_get_in in E'; auto. congruence.
Qed.

(** ** Logs *)
Lemma newest_app k a b : newest k (a ++ b) = match newest k a with Some v => Some v | None => newest k b end.
Proof. induction a as [|[k' v] a IH]; cbn; auto. destruct (bytes_eqb k k'); auto. Qed.

Lemma newest_layers k ls v :
  newest k (concat (rev ls)) = Some v <->
  exists i lg, nth_error ls i = Some lg /\ newest k lg = Some v /\
    forall j lg', (i < j)%nat -> nth_error ls j = Some lg' -> newest k lg' = None.
Proof.
  induction ls as [|lg0 ls IH] using rev_ind.
  - cbn. split; [discriminate|]. intros (i & lg & H & _). destruct i; discriminate.
  - rewrite rev_app_distr. cbn [rev app concat]. rewrite newest_app.
    destruct (newest k lg0) as [w|] eqn:E.
    + split.
      * intros [= ->]. exists (length ls), lg0. rewrite nth_error_app2 by lia.
        rewrite Nat.sub_diag. split; [reflexivity|]. split; auto.
        intros j lg' Hj H.
        assert (j < length (ls ++ [lg0]))%nat by (apply nth_error_Some; congruence).
        rewrite app_length in *. cbn in *. lia.
      * intros (i & lg & H & Hn & Hl).
        destruct (Nat.eq_dec i (length ls)) as [->|Hi].
        { rewrite nth_error_app2 in H by lia. rewrite Nat.sub_diag in H. injection H as <-. congruence. }
        assert (i < length (ls ++ [lg0]))%nat by (apply nth_error_Some; congruence).
        rewrite app_length in *. cbn in *.
        rewrite (Hl (length ls) lg0) in E; [discriminate|lia|].
        rewrite nth_error_app2 by lia. now rewrite Nat.sub_diag.
    + rewrite IH. split.
      * intros (i & lg & H & Hn & Hl).
        assert (i < length ls)%nat by (apply nth_error_Some; congruence).
        exists i, lg. rewrite nth_error_app1 by lia. repeat split; auto.
        intros j lg' Hj Hj'.
        destruct (Nat.lt_ge_cases j (length ls)).
        { rewrite nth_error_app1 in Hj' by lia. eauto. }
        rewrite nth_error_app2 in Hj' by lia.
        destruct (j - length ls)%nat as [|[|]] eqn:Ej; cbn in Hj'; try discriminate.
        injection Hj' as <-. auto.
      * intros (i & lg & H & Hn & Hl).
        assert (i < length (ls ++ [lg0]))%nat by (apply nth_error_Some; congruence).
        rewrite app_length in *. cbn in *.
        destruct (Nat.eq_dec i (length ls)) as [->|Hi].
        { rewrite nth_error_app2 in H by lia. rewrite Nat.sub_diag in H. injection H as <-. congruence. }
        rewrite nth_error_app1 in H by lia.
        exists i, lg. repeat split; auto. intros j lg' Hj Hj'.
        apply (Hl j); auto. rewrite nth_error_app1; auto.
        apply nth_error_Some. congruence.
Qed.

(** ** Reading tables *)
Lemma pick_latest_none rows : pick_latest rows = None -> rows = [].
Proof.
  destruct rows as [|r rows]; auto. cbn. destruct (pick_latest rows); [|discriminate].
  destruct (_ <=? _); discriminate.
Qed.

Lemma pick_latest_some rows r :
  pick_latest rows = Some r -> In r rows /\ forall r', In r' rows -> vr_layer r' <= vr_layer r.
Proof.
  revert r. induction rows as [|r0 rows IH]; cbn; intros r; [discriminate|].
  destruct (pick_latest rows) as [r1|] eqn:E.
  - destruct (IH r1 eq_refl) as [Hin Hmax]. destruct (vr_layer r1 <=? vr_layer r0) eqn:L; intros [= <-].
    + split; auto. intros r' [->|H]; [lia|]. specialize (Hmax _ H). lia.
    + split; auto. intros r' [->|H]; [lia|]. auto.
  - intros [= <-]. apply pick_latest_none in E. subst. split; auto. intros r' [->|[]]. lia.
Qed.

Lemma in_joined (f : value_row -> bool) (g : layer_row -> bool) (layers : list layer_row) vals v (P : value_row -> layer_row -> bool) :
  (forall v l, P v l = g l && f v) ->
  In v (flat_map (fun v => map (fun _ => v) (filter (P v) layers)) vals)
  <-> In v vals /\ f v = true /\ exists l, In l layers /\ g l = true.
Proof.
  intros HP. rewrite in_flat_map. split.
  - intros (x & Hx & Hin). apply in_map_iff in Hin. destruct Hin as (l & -> & Hl).
    apply filter_In in Hl. destruct Hl as [Hl E]. rewrite HP in E. apply andb_true_iff in E.
    intuition. eauto.
  - intros (Hin & Hf & l & Hl & Hg). exists v. split; auto. apply in_map_iff. exists l. split; auto.
    apply filter_In. split; auto. rewrite HP. now rewrite Hf, Hg.
Qed.

Lemma nth_error_firstn {A} (l : list A) n i :
  nth_error (firstn n l) i = if Nat.ltb i n then nth_error l i else None.
Proof.
  revert n i. induction l as [|a l IH]; intros [|n] [|i]; cbn [firstn nth_error]; auto.
  1: destruct (Nat.ltb _ _); reflexivity.
  rewrite IH. change (Nat.ltb (S i) (S n)) with (Nat.ltb i n). reflexivity.
Qed.

(** The rows of the "values" table are exactly the newest writes of each layer. *)
Definition rows_of (ls : list log) (vals : list value_row) : Prop :=
  forall k x z, In (mkValueRow k x z) vals <->
    exists i lg, z = Z.of_nat i - 2 /\ nth_error ls i = Some lg /\ newest k lg = Some x.

Lemma latest_char ls vals k n rows :
  rows_of ls vals ->
  (forall r, In r rows <-> In r vals /\ vr_key r = k /\ vr_layer r < Z.of_nat n - 2) ->
  option_map vr_value (pick_latest rows) = newest k (concat (rev (firstn n ls))).
Proof.
  intros HR HC. symmetry.
  destruct (pick_latest rows) as [r|] eqn:E; cbn [option_map].
  - apply pick_latest_some in E. destruct E as [Hin Hmax].
    apply HC in Hin. destruct Hin as (Hin & Hk & Hl). destruct r as [k0 x z]; cbn in *. subst k0.
    pose proof Hin as Hin0. apply HR in Hin. destruct Hin as (i & lg & -> & Hi & Hx).
    apply newest_layers. exists i, lg. rewrite nth_error_firstn.
    destruct (Nat.ltb_spec i n); [|lia]. repeat split; auto.
    intros j lg' Hj Hj'. rewrite nth_error_firstn in Hj'. destruct (Nat.ltb_spec j n); [|discriminate].
    destruct (newest k lg') as [y|] eqn:Ey; auto. exfalso.
    assert (In (mkValueRow k y (Z.of_nat j - 2)) rows) as Hr.
    { apply HC. cbn. split; [|split; [reflexivity|lia]]. apply HR. eauto 8. }
    apply Hmax in Hr. cbn in Hr. lia.
  - apply pick_latest_none in E. subst rows.
    destruct (newest k _) as [x|] eqn:Ex; auto. exfalso.
    apply newest_layers in Ex. destruct Ex as (i & lg & Hi & Hx & _).
    rewrite nth_error_firstn in Hi. destruct (Nat.ltb_spec i n); [|discriminate].
    apply (proj2 (HC (mkValueRow k x (Z.of_nat i - 2)))). cbn. split; [|split; [auto|lia]].
    apply HR. eauto 8.
Qed.

Definition ids_of (n : nat) : list Z := map (fun i => Z.of_nat i - 2) (seq 0 n).
Arguments ids_of : simpl never.

Record R (s : storage) (v : versions) : Prop := mkR {
  R_next : st_next_id s = next_layer v;
  R_len : (1 <= length (committed v))%nat;
  R_ids : map lr_id (db_layers (st_db s)) = ids_of (length (committed v));
  R_complete : Forall (fun l => lr_complete l = true) (db_layers (st_db s));
  R_rows : rows_of (committed v) (db_values (st_db s));
  R_changes : forall k, ch_get k (st_changes s) = newest k (staged v);
  R_changes_nd : NoDup (map fst (st_changes s));
  R_dirty : forall k, ch_get k (st_dirty s) = newest k (pending v);
  R_dirty_nd : NoDup (map fst (st_dirty s)) }.

Lemma R_dirty_nil s v : R s v -> (st_dirty s = [] <-> pending v = []).
Proof.
  intros H. pose proof (R_dirty _ _ H) as D. split; intros E.
  - rewrite E in D. destruct (pending v) as [|[k x] p]; auto. specialize (D k). cbn in D.
    rewrite beqb_refl in D. discriminate.
  - rewrite E in D. destruct (st_dirty s) as [|[k x] p]; auto. specialize (D k). cbn in D.
    rewrite beqb_refl in D. discriminate.
Qed.

Lemma R_has_complete s v : R s v -> exists l, In l (db_layers (st_db s)) /\ lr_complete l = true.
Proof.
  intros H. pose proof (R_ids _ _ H) as I. pose proof (R_len _ _ H).
  pose proof (R_complete _ _ H) as C. unfold ids_of in I.
  destruct (db_layers (st_db s)) as [|l ls].
  - destruct (length (committed v)); [lia|discriminate].
  - exists l. inversion C; subst. split; [now left|auto].
Qed.

Lemma R_read_at s v k l : R s v -> sql_get_historical (st_db s) k l = read_at v l k.
Proof.
  intros H. unfold sql_get_historical, read_at, upto.
  apply latest_char with (vals := db_values (st_db s)); [apply (R_rows _ _ H)|].
  intros r. rewrite (in_joined (fun v => (vr_layer v <=? l) && bytes_eqb (vr_key v) k) lr_complete).
  2: { intros. now rewrite <- andb_assoc, andb_comm, <- andb_assoc, (andb_comm (bytes_eqb _ _)). }
  rewrite andb_true_iff, bytes_eqb_spec. pose proof (R_has_complete _ _ H).
  split.
  - intros (Hin & [Hl Hk] & _). repeat split; auto.
    destruct r as [k0 x z]. apply (R_rows _ _ H) in Hin. destruct Hin as (i & lg & -> & _). cbn in *. lia.
  - intros (Hin & Hk & Hl). split; auto. split; auto. split; auto.
    destruct r as [k0 x z]. apply (R_rows _ _ H) in Hin. destruct Hin as (i & lg & -> & _). cbn in *. lia.
Qed.

Lemma R_read_db s v k : R s v -> sql_get_current (st_db s) k = newest k (concat (rev (committed v))).
Proof.
  intros H. unfold sql_get_current.
  rewrite <- (firstn_all (committed v)) at 1.
  apply latest_char with (vals := db_values (st_db s)); [apply (R_rows _ _ H)|].
  intros r. rewrite (in_joined (fun v => bytes_eqb (vr_key v) k) lr_complete) by auto.
  rewrite bytes_eqb_spec. pose proof (R_has_complete _ _ H).
  split; [|tauto].
  intros (Hin & Hk & _). repeat split; auto.
  destruct r as [k0 x z]. apply (R_rows _ _ H) in Hin. destruct Hin as (i & lg & -> & Hi & _). cbn.
  assert (i < length (committed v))%nat by (apply nth_error_Some; congruence). lia.
Qed.

Lemma R_get_now s v k : R s v -> get_by_hash s k None = Ok (read_now v k).
Proof.
  intros H. unfold get_by_hash, read_now. rewrite !newest_app, <- (R_dirty _ _ H), <- (R_changes _ _ H), <- (R_read_db _ _ _ H).
  destruct (ch_get k (st_dirty s)); auto. destruct (ch_get k (st_changes s)); auto.
Qed.

Lemma R_get_at s v k l : R s v -> l < next_layer v -> get_by_hash s k (Some l) = Ok (read_at v l k).
Proof.
  intros H Hl. unfold get_by_hash. rewrite (R_next _ _ H).
  destruct (Z.ltb_spec l (next_layer v)); [|lia]. now rewrite (R_read_at s v).
Qed.

(** ** Preservation *)
Lemma fresh_eq : open_db empty_db = Ok fresh.
Proof. reflexivity. Qed.

Lemma R_fresh : R fresh empty_versions.
Proof.
  split; try reflexivity; cbn; auto; try constructor; auto; try constructor.
  - intros [].
  - intros (i & lg & _ & Hi & Hn). destruct i as [|[|]]; cbn in Hi; try discriminate.
    injection Hi as <-. discriminate.
Qed.

Lemma R_upsert s v k x : R s v -> R (upsert_by_hash s k x) (snd (perform (Upsert k x) v)).
Proof.
  intros []. split; cbn; auto.
  - intros k0. rewrite ch_get_insert, R_dirty0. reflexivity.
  - now apply ch_insert_nodup.
Qed.

Lemma R_rollback s v : R s v -> R (rollback s) (snd (perform Rollback v)).
Proof. intros []. split; cbn; auto. constructor. Qed.

Definition apply_changes (c base : changes) : changes := fold_left (fun acc '(k, v) => ch_insert k v acc) c base.

Lemma checkpoint_fold e c fp base :
  snd (fold_left (fun '(fp, chs) '(k, v) =>
                 (xor_fingerprint fp (hash_key_value_pair e k v), ch_insert k v chs)) c (fp, base))
  = apply_changes c base.
Proof.
  revert fp base. induction c as [|[k v] c IH]; intros; cbn [fold_left]; auto.
  rewrite IH. reflexivity.
Qed.

Lemma checkpoint_eq e s :
  checkpoint e s = mkStorage (st_db s) [] (st_next_id s) (apply_changes (env_iter e (st_dirty s)) (st_changes s)) (st_xor s).
Proof.
  unfold checkpoint. rewrite <- (checkpoint_fold e _ (st_xor s)).
  destruct (fold_left _ _ _). reflexivity.
Qed.

Lemma apply_changes_nd c base : NoDup (map fst base) -> NoDup (map fst (apply_changes c base)).
Proof.
  revert base. induction c as [|[k v] c IH]; intros; cbn; auto. apply IH. now apply ch_insert_nodup.
Qed.

Lemma apply_changes_get c base k :
  NoDup (map fst c) ->
  ch_get k (apply_changes c base) = match ch_get k c with Some v => Some v | None => ch_get k base end.
Proof.
  revert base. induction c as [|[k1 v] c IH]; intros base ND; cbn; auto.
  inversion ND; subst. unfold apply_changes in IH. rewrite IH by auto.
  rewrite ch_get_insert. destruct (bytes_eqb k k1) eqn:E; auto.
  apply bytes_eqb_spec in E. subst k1.
  destruct (ch_get k c) as [w|] eqn:G; auto. exfalso. apply H1.
  apply ch_get_in in G; auto. apply in_map_iff. now exists (k, w).
Qed.

Lemma perm_nd (c c' : changes) : Permutation c' c -> NoDup (map fst c) -> NoDup (map fst c').
Proof. intros P. apply Permutation_NoDup. apply Permutation_sym. now apply Permutation_map. Qed.

Lemma R_checkpoint e s v : iterates e -> R s v -> R (checkpoint e s) (snd (perform Checkpoint v)).
Proof.
  intros HI []. rewrite checkpoint_eq. split; cbn; auto; try constructor.
  - intros k. rewrite newest_app, apply_changes_get by (eapply perm_nd; [apply HI|auto]).
    rewrite (ch_get_perm (st_dirty s)) by auto.
    rewrite R_dirty0, R_changes0. reflexivity.
  - now apply apply_changes_nd.
Qed.

(** ** Commit *)
Lemma ids_of_S n : ids_of (S n) = ids_of n ++ [Z.of_nat n - 2].
Proof. unfold ids_of. rewrite seq_S, map_app. reflexivity. Qed.

Lemma in_ids_of n z : In z (ids_of n) <-> -2 <= z < Z.of_nat n - 2.
Proof.
  unfold ids_of. rewrite in_map_iff. split.
  - intros (i & <- & Hi). apply in_seq in Hi. lia.
  - intros H. exists (Z.to_nat (z + 2)). rewrite in_seq. lia.
Qed.

Lemma find_layer s v l :
  R s v -> -2 <= l < next_layer v -> exists fp, layer_fingerprint (st_db s) l true = Ok fp.
Proof.
  intros H Hl. unfold layer_fingerprint.
  assert (Hin : In l (map lr_id (db_layers (st_db s)))).
  { rewrite (R_ids _ _ H). apply in_ids_of. unfold next_layer in Hl. lia. }
  apply in_map_iff in Hin. destruct Hin as (r & Er & Hr).
  pose proof (R_complete _ _ H) as C. rewrite Forall_forall in C.
  destruct (find _ _) as [r'|] eqn:F; [eauto|].
  pose proof (find_none _ _ F _ Hr) as F'. cbn beta in F'.
  rewrite Er, Z.eqb_refl, (C r Hr) in F'. discriminate.
Qed.

Lemma insert_values_ok c d id :
  existsb (fun l => lr_id l =? id) (db_layers d) = true ->
  insert_values d id c = Ok (mkDb (db_layers d) (db_values d ++ map (fun '(k, v) => mkValueRow k v id) c)).
Proof.
  revert d. induction c as [|[k v] c IH]; intros d H; cbn.
  - rewrite app_nil_r. now destruct d.
  - unfold insert_value. rewrite H. cbn. rewrite IH by auto. cbn. now rewrite <- app_assoc.
Qed.

Lemma not_existsb_id ls id : ~ In id (map lr_id ls) -> existsb (fun l => lr_id l =? id) ls = false.
Proof.
  intros H. destruct (existsb _ _) eqn:E; auto. apply existsb_exists in E.
  destruct E as (l & Hl & E). exfalso. apply H. apply in_map_iff. exists l. split; auto. lia.
Qed.

Lemma update_map ls id fp fp' :
  Forall (fun l => lr_complete l = true) ls ->
  map (fun l => if (lr_id l =? id) && negb (lr_complete l) then mkLayerRow (lr_id l) fp true else l)
      (ls ++ [mkLayerRow id fp' false]) = ls ++ [mkLayerRow id fp true].
Proof.
  intros H. rewrite map_app. cbn. rewrite Z.eqb_refl. cbn. f_equal.
  induction H as [|l ls Hl _ IH]; cbn; auto. rewrite Hl, andb_false_r, IH. reflexivity.
Qed.

Lemma R_commit_eq e s v :
  R s v -> pending v = [] ->
  exists prev, layer_fingerprint (st_db s) (st_next_id s - 1) true = Ok prev /\
    commit e s = (Ok (next_layer v, xor_fingerprint prev (st_xor s)),
      mkStorage (mkDb (db_layers (st_db s) ++ [mkLayerRow (next_layer v) (xor_fingerprint prev (st_xor s)) true])
                      (db_values (st_db s) ++ map (fun '(k, x) => mkValueRow k x (next_layer v)) (env_iter e (st_changes s))))
                [] (next_layer v + 1) [] state_ones).
Proof.
  intros H HP. pose proof (R_next _ _ H) as HN. pose proof (R_len _ _ H) as HL.
  destruct (find_layer s v (next_layer v - 1) H) as [prev Hp]; [unfold next_layer; lia|].
  exists prev. rewrite HN. split; [exact Hp|].
  unfold commit. rewrite (proj2 (R_dirty_nil _ _ H) HP). rewrite HN, Hp.
  unfold insert_layer. rewrite not_existsb_id.
  2: { rewrite (R_ids _ _ H), in_ids_of. unfold next_layer. lia. }
  rewrite insert_values_ok.
  2: { cbn. rewrite existsb_app. cbn. rewrite Z.eqb_refl. now rewrite !orb_true_r. }
  unfold update_layer. cbn [db_layers db_values].
  rewrite update_map by apply (R_complete _ _ H). reflexivity.
Qed.

Lemma R_commit e s v :
  iterates e -> R s v -> pending v = [] -> R (snd (commit e s)) (mkVersions (committed v ++ [staged v]) [] []).
Proof.
  intros HI H HP. destruct (R_commit_eq e s v H HP) as (prev & Hprev & ->). cbn [snd].
  pose proof H as H0. destruct H. split; cbn; auto; try constructor.
  - unfold next_layer. cbn. rewrite app_length. cbn. lia.
  - rewrite app_length. cbn. lia.
  - rewrite map_app, app_length, R_ids0. cbn [map lr_id length]. rewrite Nat.add_1_r, ids_of_S. reflexivity.
  - apply Forall_app. split; auto.
  - rewrite in_app_iff. intros [Hin|Hin].
    + apply R_rows0 in Hin. destruct Hin as (i & lg & -> & Hi & Hx). exists i, lg. repeat split; auto.
      rewrite nth_error_app1; auto. apply nth_error_Some. congruence.
    + apply in_map_iff in Hin. destruct Hin as ([k0 x0] & [= <- <- <-] & Hin).
      exists (length (committed v)), (staged v). rewrite nth_error_app2, Nat.sub_diag by lia.
      repeat split. rewrite <- R_changes0. apply ch_get_in; auto.
      apply (Permutation_in _ (HI _)). exact Hin.
  - intros (i & lg & -> & Hi & Hx). rewrite in_app_iff.
    assert (i < length (committed v ++ [staged v]))%nat by (apply nth_error_Some; congruence).
    rewrite app_length in *. cbn in *.
    destruct (Nat.eq_dec i (length (committed v))) as [->|Hne].
    + right. rewrite nth_error_app2, Nat.sub_diag in Hi by lia. injection Hi as <-.
      apply in_map_iff. exists (k, x). split; auto.
      apply (Permutation_in _ (Permutation_sym (HI _))). apply ch_get_in; auto. congruence.
    + left. apply R_rows0. rewrite nth_error_app1 in Hi by lia. eauto 8.
Qed.

(** ** Rewind *)
Lemma filter_ids n l :
  filter (fun z => negb (l <? z)) (ids_of n) = ids_of (Nat.min (Z.to_nat (l + 3)) n).
Proof.
  induction n.
  - rewrite Nat.min_0_r. reflexivity.
  - rewrite ids_of_S, filter_app, IHn. cbn.
    destruct (Z.ltb_spec l (Z.of_nat n - 2)); cbn.
    + rewrite app_nil_r. f_equal. lia.
    + replace (Nat.min (Z.to_nat (l + 3)) (S n)) with (S n) by lia.
      rewrite ids_of_S. f_equal. f_equal. lia.
Qed.

Lemma filter_map_id (P : Z -> bool) ls :
  map lr_id (filter (fun l => P (lr_id l)) ls) = filter P (map lr_id ls).
Proof. induction ls; cbn; auto. destruct (P (lr_id a)); cbn; congruence. Qed.

Lemma R_rewind s v l :
  R s v -> pending v = [] -> -2 <= l < next_layer v ->
  R (mkStorage (delete_layers_above (st_db s) l) [] (l + 1) [] state_ones) (mkVersions (upto l v) [] []).
Proof.
  intros H HP Hl.
  assert (Hlen : length (upto l v) = Z.to_nat (l + 3)).
  { unfold upto. rewrite firstn_length. unfold next_layer in Hl. lia. }
  destruct H. split; cbn; auto; try constructor.
  - unfold next_layer. cbn. rewrite Hlen. lia.
  - lia.
  - rewrite filter_map_id with (P := fun z => negb (l <? z)), R_ids0, filter_ids, Hlen.
    f_equal. unfold next_layer in Hl. lia.
  - apply Forall_forall. intros x Hx. apply filter_In in Hx. rewrite Forall_forall in R_complete0. now apply R_complete0.
  - intros Hin. apply filter_In in Hin. destruct Hin as [Hin Hn]. apply R_rows0 in Hin.
    destruct Hin as (i & lg & -> & Hi & Hx). exists i, lg. repeat split; auto.
    unfold upto. rewrite nth_error_firstn. destruct (Nat.ltb_spec i (Z.to_nat (l + 3))); auto.
    exfalso. assert (i < length (committed v))%nat by (apply nth_error_Some; congruence).
    assert (Hid : In (Z.of_nat i - 2) (map lr_id (db_layers (st_db s)))).
    { rewrite R_ids0. apply in_ids_of. lia. }
    apply in_map_iff in Hid. destruct Hid as (r & Er & Hr).
    cbn in Hn. apply negb_true_iff in Hn.
    assert (existsb (fun l0 => (lr_id l0 =? Z.of_nat i - 2) && (l <? lr_id l0)) (db_layers (st_db s)) = true).
    { apply existsb_exists. exists r. split; auto. rewrite Er. lia. }
    congruence.
  - intros (i & lg & -> & Hi & Hx). unfold upto in Hi. rewrite nth_error_firstn in Hi.
    destruct (Nat.ltb_spec i (Z.to_nat (l + 3))); [|discriminate].
    apply filter_In. split; [apply R_rows0; eauto 8|].
    cbn. apply negb_true_iff. destruct (existsb _ _) eqn:E; auto. apply existsb_exists in E.
    destruct E as (r & _ & E). lia.
Qed.

(** ** Refinement *)
Lemma exec_sound e o s v :
  iterates e -> R s v -> (match o with Rewind l => -2 <= l | _ => True end) ->
  fst (exec e o s) = fst (perform o v) /\ R (snd (exec e o s)) (snd (perform o v)).
Proof.
  intros HI H Ho. destruct o as [k x| | | |l]; cbn [exec perform fst snd].
  - split; auto. now apply R_upsert.
  - split; auto. now apply R_checkpoint.
  - split; auto. now apply R_rollback.
  - destruct (pending v) as [|p ps] eqn:HP.
    + pose proof (R_commit e s v HI H HP) as HC.
      destruct (R_commit_eq e s v H HP) as (prev & _ & EC). rewrite EC in *. cbn [fst snd] in *. auto.
    + unfold commit. destruct (st_dirty s) eqn:D.
      { apply (R_dirty_nil _ _ H) in D. congruence. }
      cbn. auto.
  - unfold rewind. rewrite (R_next _ _ H). destruct (Z.ltb_spec l (next_layer v)); [|cbn; auto].
    destruct (pending v) as [|p ps] eqn:HP.
    + rewrite (proj2 (R_dirty_nil _ _ H) HP). cbn. split; auto. apply R_rewind; auto.
    + destruct (st_dirty s) eqn:D.
      { apply (R_dirty_nil _ _ H) in D. congruence. }
      cbn. auto.
Qed.

Lemma exec_all_sound e ops s v :
  iterates e -> R s v -> rewinds_above (-2) ops ->
  fst (exec_all e ops s) = fst (perform_all ops v) /\ R (snd (exec_all e ops s)) (snd (perform_all ops v)).
Proof.
  intros HI. revert s v. induction ops as [|o ops IH]; intros s v H HO; cbn [exec_all perform_all].
  - auto.
  - inversion HO; subst. destruct (exec_sound e o s v HI H H2) as [E HR].
    destruct (exec e o s) as [r s1], (perform o v) as [r' v1]. cbn [fst snd] in *. subst r'.
    destruct (IH s1 v1 HR H3) as [E2 HR2].
    destruct (exec_all e ops s1), (perform_all ops v1). cbn [fst snd] in *. subst. auto.
Qed.

(** ** Reachable storages *)
Lemma exec_all_app e a b s :
  snd (exec_all e (a ++ b) s) = snd (exec_all e b (snd (exec_all e a s))).
Proof.
  revert s. induction a as [|o a IH]; intros s; cbn [exec_all app]; auto.
  destruct (exec e o s) as [r s1]. specialize (IH s1).
  destruct (exec_all e (a ++ b) s1), (exec_all e a s1). cbn in *. auto.
Qed.

Lemma reachable_R e s : iterates e -> reachable e s -> exists v, R s v.
Proof.
  intros HI (ops & HO & <-). exists (snd (perform_all ops empty_versions)).
  apply exec_all_sound; auto. apply R_fresh.
Qed.

Lemma reachable_exec_all e s ops :
  reachable e s -> rewinds_above (-2) ops -> reachable e (snd (exec_all e ops s)).
Proof.
  intros (ops0 & HO & <-) H. exists (ops0 ++ ops). split.
  - apply Forall_app. auto.
  - apply exec_all_app.
Qed.

Lemma rewinds_weaken a b ops : b <= a -> rewinds_above a ops -> rewinds_above b ops.
Proof. intros H. apply Forall_impl. intros []; auto. lia. Qed.

(** C15 *)
Lemma storage_refines e ops :
  iterates e -> rewinds_above (-2) ops ->
  open_db empty_db = Ok fresh /\
  let (rs, s) := exec_all e ops fresh in
  let (rs', v) := perform_all ops empty_versions in
  rs = rs'
  /\ (forall k, get_by_hash s k None = Ok (read_now v k))
  /\ (forall k l, get_by_hash s k (Some l) = if l <? next_layer v then Ok (read_at v l k) else Panic)
  /\ has_uncommitted_changes s = match pending v with [] => false | _ => true end.
Proof.
  intros HI HO. split; [reflexivity|].
  destruct (exec_all_sound e ops _ _ HI R_fresh HO) as [E H].
  destruct (exec_all e ops fresh) as [rs s], (perform_all ops empty_versions) as [rs' v]. cbn in *.
  split; auto. split; [intros; now apply R_get_now|]. split.
  - intros k l. destruct (Z.ltb_spec l (next_layer v)); [now apply R_get_at|].
    unfold get_by_hash. rewrite (R_next _ _ H). destruct (Z.ltb_spec l (next_layer v)); [lia|auto].
  - unfold has_uncommitted_changes. pose proof (R_dirty_nil _ _ H).
    destruct (st_dirty s), (pending v); intuition discriminate.
Qed.

Lemma get_upsert s k k' x :
  get_by_hash (upsert_by_hash s k x) k' None = if bytes_eqb k' k then Ok (Some x) else get_by_hash s k' None.
Proof.
  unfold get_by_hash, upsert_by_hash. cbn. rewrite ch_get_insert. now destruct (bytes_eqb k' k).
Qed.

Lemma get_checkpoint e s k :
  iterates e -> reachable e s -> get_by_hash (checkpoint e s) k None = get_by_hash s k None.
Proof.
  intros HI HR. destruct (reachable_R e s HI HR) as [v H].
  rewrite (R_get_now s v), (R_get_now _ _ k (R_checkpoint e s v HI H)) by auto.
  unfold read_now. cbn. now rewrite <- app_assoc.
Qed.

(** C19 *)
Lemma R_last_layer s v : R s v -> exists fp, last_layer s = Ok (next_layer v - 1, fp)
   /\ layer_fingerprint (st_db s) (next_layer v - 1) true = Ok fp.
Proof.
  intros H. unfold last_layer, initial_layer_id. rewrite (R_next _ _ H). pose proof (R_len _ _ H).
  destruct (Z.ltb_spec (-2) (next_layer v)); [|unfold next_layer in *; lia].
  destruct (find_layer s v (next_layer v - 1) H) as [fp ->]; [unfold next_layer; lia|].
  exists fp. auto.
Qed.

Lemma upto_self v l : next_layer v <= l + 1 -> upto l v = committed v.
Proof. intros H. unfold upto. apply firstn_all2. unfold next_layer in *. lia. Qed.

Lemma upto_app v l x : l < next_layer v ->
  upto l (mkVersions (committed v ++ x) [] []) = upto l v.
Proof.
  intros H. unfold upto, next_layer in *. cbn. rewrite firstn_app.
  replace (Z.to_nat (l + 3) - length (committed v))%nat with O by lia. cbn. apply app_nil_r.
Qed.

Lemma upto_app_eq v x : upto (next_layer v) (mkVersions (committed v ++ [x]) [] []) = committed v ++ [x].
Proof.
  unfold upto, next_layer. cbn. apply firstn_all2. rewrite app_length. cbn. lia.
Qed.

Lemma find_none_ids ls l : ~ In l (map lr_id ls) -> find (fun r => (lr_id r =? l) && Bool.eqb (lr_complete r) true) ls = None.
Proof.
  induction ls as [|r ls IH]; cbn; intros H; auto.
  destruct (Z.eqb_spec (lr_id r) l); [exfalso; auto|]. cbn. apply IH. auto.
Qed.
Lemma find_app_none {A} (f : A -> bool) a b : find f a = None -> find f (a ++ b) = find f b.
Proof. induction a; cbn; auto. destruct (f a); auto. discriminate. Qed.

Lemma commit_spec e s :
  iterates e -> reachable e s -> has_uncommitted_changes s = false ->
  exists l prev fp s',
    last_layer s = Ok (l - 1, prev) /\
    commit e s = (Ok (l, fp), s') /\
    last_layer s' = Ok (l, fp) /\
    (forall k, get_by_hash s' k None = get_by_hash s k None) /\
    (forall k, get_by_hash s' k (Some l) = get_by_hash s k None) /\
    (forall k m, m < l -> get_by_hash s' k (Some m) = get_by_hash s k (Some m)).
Proof.
  intros HI HR HU. destruct (reachable_R e s HI HR) as [v H].
  assert (HP : pending v = []).
  { apply (R_dirty_nil _ _ H). unfold has_uncommitted_changes in HU. destruct (st_dirty s); congruence. }
  destruct (R_last_layer s v H) as (fp0 & HL & _).
  pose proof (R_commit e s v HI H HP) as H'.
  destruct (R_commit_eq e s v H HP) as (prev & _ & EC).
  set (s' := snd (commit e s)) in *.
  exists (next_layer v), fp0, (xor_fingerprint prev (st_xor s)), s'.
  split; auto. split; [unfold s'; rewrite EC; reflexivity|].
  assert (HN : next_layer (mkVersions (committed v ++ [staged v]) [] []) = next_layer v + 1).
  { unfold next_layer. cbn. rewrite app_length. cbn. lia. }
  pose proof (R_len _ _ H) as HLen.
  repeat split.
  - unfold last_layer, initial_layer_id. rewrite (R_next _ _ H'), HN.
    destruct (Z.ltb_spec (-2) (next_layer v + 1)); [|unfold next_layer in *; lia].
    replace (next_layer v + 1 - 1) with (next_layer v) by lia.
    unfold layer_fingerprint, s'. rewrite EC. cbn [snd st_db db_layers].
    rewrite find_app_none.
    + cbn. rewrite Z.eqb_refl. reflexivity.
    + apply find_none_ids. rewrite (R_ids _ _ H), in_ids_of. unfold next_layer. lia.
  - intros k. rewrite (R_get_now s v), (R_get_now s' _ k H') by auto.
    unfold read_now. cbn. rewrite HP, rev_app_distr. reflexivity.
  - intros k. rewrite (R_get_now s v), (R_get_at s' _ k _ H') by (auto; lia).
    unfold read_now, read_at. rewrite upto_app_eq, HP, rev_app_distr. reflexivity.
  - intros k m Hm. rewrite (R_get_at s v), (R_get_at s' _ k _ H') by (auto; lia).
    unfold read_at. rewrite upto_app by lia. reflexivity.
Qed.

(** C16 *)
Lemma perform_upto l o v :
  l < next_layer v -> (match o with Rewind m => l <= m | _ => True end) ->
  upto l (snd (perform o v)) = upto l v /\ l < next_layer (snd (perform o v)).
Proof.
  intros Hl Ho. destruct o as [k x| | | |m]; cbn [perform snd]; auto.
  - destruct (pending v); cbn [snd]; auto.
    rewrite upto_app by lia. split; auto. unfold next_layer in *. cbn. rewrite app_length. lia.
  - destruct (Z.ltb_spec m (next_layer v)); cbn [snd]; auto.
    destruct (pending v); cbn [snd]; auto.
    unfold upto, next_layer in *. cbn. rewrite firstn_firstn, firstn_length. split; [f_equal; lia|lia].
Qed.

Lemma perform_all_upto l ops v :
  l < next_layer v -> rewinds_above l ops ->
  upto l (snd (perform_all ops v)) = upto l v /\ l < next_layer (snd (perform_all ops v)).
Proof.
  revert v. induction ops as [|o ops IH]; intros v Hl HO; cbn [perform_all]; auto.
  inversion HO; subst. destruct (perform_upto l o v Hl H1) as [E1 L1].
  destruct (perform o v) as [r v1]. cbn [snd] in *.
  destruct (IH v1 L1 H2) as [E2 L2]. destruct (perform_all ops v1). cbn [snd] in *.
  split; congruence.
Qed.

Lemma committed_immutable e s l ops k :
  iterates e -> reachable e s -> l < st_next_id s ->
  rewinds_above (-2) ops -> rewinds_above l ops ->
  get_by_hash (snd (exec_all e ops s)) k (Some l) = get_by_hash s k (Some l).
Proof.
  intros HI HR Hl HO HO2. destruct (reachable_R e s HI HR) as [v H].
  destruct (exec_all_sound e ops s v HI H HO) as [_ H'].
  rewrite (R_next _ _ H) in Hl.
  destruct (perform_all_upto l ops v Hl HO2) as [E L].
  rewrite (R_get_at s v), (R_get_at _ _ _ _ H') by auto.
  unfold read_at. now rewrite E.
Qed.

(** C17 *)
Definition rows_upto (l : Z) (s : storage) : list layer_row :=
  filter (fun r => negb (l <? lr_id r)) (db_layers (st_db s)).

Lemma filter_filter_impl {A} (f g : A -> bool) l :
  (forall x, g x = true -> f x = true) -> filter g (filter f l) = filter g l.
Proof.
  intros H. induction l as [|a l IH]; cbn; auto.
  destruct (f a) eqn:F; cbn; rewrite IH; auto. destruct (g a) eqn:G; auto. rewrite (H _ G) in F. discriminate.
Qed.

Lemma exec_rows_upto e l o s v :
  iterates e -> R s v -> l < next_layer v ->
  (match o with Rewind m => l <= m | _ => True end) ->
  rows_upto l (snd (exec e o s)) = rows_upto l s.
Proof.
  intros HI H Hl Ho. unfold rows_upto. destruct o as [k x| | | |m]; cbn [exec snd]; auto.
  - rewrite checkpoint_eq. reflexivity.
  - destruct (pending v) as [|p ps] eqn:HP.
    + destruct (R_commit_eq e s v H HP) as (prev & _ & ->). cbn [snd st_db db_layers].
      rewrite filter_app. cbn. destruct (Z.ltb_spec l (next_layer v)); [|lia]. cbn. apply app_nil_r.
    + unfold commit. destruct (st_dirty s) eqn:D; auto.
      apply (R_dirty_nil _ _ H) in D. congruence.
  - unfold rewind. destruct (m <? st_next_id s); auto. destruct (st_dirty s); auto.
    cbn. apply filter_filter_impl. intros r Hr. lia.
Qed.

Lemma exec_all_rows_upto e l ops s v :
  iterates e -> R s v -> l < next_layer v -> rewinds_above (-2) ops -> rewinds_above l ops ->
  rows_upto l (snd (exec_all e ops s)) = rows_upto l s.
Proof.
  intros HI. revert s v. induction ops as [|o ops IH]; intros s v H Hl HO HO2; cbn [exec_all]; auto.
  inversion HO; inversion HO2; subst.
  destruct (exec_sound e o s v HI H H2) as [_ HR].
  pose proof (exec_rows_upto e l o s v HI H Hl H6) as E.
  destruct (perform_upto l o v Hl H6) as [_ L].
  destruct (exec e o s) as [r s1], (perform o v) as [r' v1]. cbn [snd] in *.
  specialize (IH s1 v1 HR L H3 H7). destruct (exec_all e ops s1). cbn [snd] in *. congruence.
Qed.

Lemma filter_all {A} (f : A -> bool) l : (forall x, In x l -> f x = true) -> filter f l = l.
Proof. induction l; cbn; intros H; auto. rewrite H by auto. f_equal. apply IHl. auto. Qed.

Lemma rows_upto_all s v l : R s v -> next_layer v <= l + 1 -> rows_upto l s = db_layers (st_db s).
Proof.
  intros H Hl. apply filter_all. intros r Hr.
  apply (in_map lr_id) in Hr. rewrite (R_ids _ _ H) in Hr. apply in_ids_of in Hr. unfold next_layer in *. lia.
Qed.

(** Two storages that no sequence of operations can tell apart. *)
Definition Sim (s t : storage) : Prop :=
  db_layers (st_db s) = db_layers (st_db t) /\ st_xor s = st_xor t /\ exists v, R s v /\ R t v.

Lemma Sim_reads s t : Sim s t -> (forall k l, get_by_hash s k l = get_by_hash t k l) /\ last_layer s = last_layer t.
Proof.
  intros (HL & _ & v & Hs & Ht). split.
  - intros k [l|].
    + destruct (Z.lt_ge_cases l (next_layer v)).
      * now rewrite (R_get_at s v), (R_get_at t v).
      * unfold get_by_hash. rewrite (R_next _ _ Hs), (R_next _ _ Ht).
        destruct (Z.ltb_spec l (next_layer v)); [lia|auto].
    + now rewrite (R_get_now s v), (R_get_now t v).
  - unfold last_layer, layer_fingerprint. now rewrite HL, (R_next _ _ Hs), (R_next _ _ Ht).
Qed.

Lemma Sim_exec e o s t : iterates e -> (match o with Rewind l => -2 <= l | _ => True end) ->
  Sim s t -> fst (exec e o s) = fst (exec e o t) /\ Sim (snd (exec e o s)) (snd (exec e o t)).
Proof.
  intros HI Ho (HL & HX & v & Hs & Ht).
  destruct (exec_sound e o s v HI Hs Ho) as [E1 R1]. destruct (exec_sound e o t v HI Ht Ho) as [E2 R2].
  split; [congruence|]. split; [|split; [|eauto]].
  - destruct o as [k x| | | |m]; cbn [exec snd]; auto.
    + now rewrite !checkpoint_eq.
    + destruct (pending v) as [|p ps] eqn:HP.
      * destruct (R_commit_eq e s v Hs HP) as (p1 & F1 & ->).
        destruct (R_commit_eq e t v Ht HP) as (p2 & F2 & ->). cbn.
        rewrite (R_next _ _ Hs) in F1. rewrite (R_next _ _ Ht) in F2.
        unfold layer_fingerprint in *. rewrite HL in F1. rewrite F1 in F2. injection F2 as <-.
        now rewrite HL, HX.
      * unfold commit. pose proof (R_dirty_nil _ _ Hs). pose proof (R_dirty_nil _ _ Ht).
        destruct (st_dirty s), (st_dirty t); auto; intuition congruence.
    + unfold rewind. rewrite (R_next _ _ Hs), (R_next _ _ Ht). destruct (m <? next_layer v); auto.
      pose proof (R_dirty_nil _ _ Hs). pose proof (R_dirty_nil _ _ Ht).
      destruct (st_dirty s), (st_dirty t); cbn; auto; try intuition congruence.
  - destruct o as [k x| | | |m]; cbn [exec snd]; auto.
    + now rewrite !checkpoint_eq.
    + destruct (pending v) as [|p ps] eqn:HP.
      * destruct (R_commit_eq e s v Hs HP) as (p1 & F1 & ->).
        destruct (R_commit_eq e t v Ht HP) as (p2 & F2 & ->). reflexivity.
      * unfold commit. pose proof (R_dirty_nil _ _ Hs). pose proof (R_dirty_nil _ _ Ht).
        destruct (st_dirty s), (st_dirty t); auto; intuition congruence.
    + unfold rewind. rewrite (R_next _ _ Hs), (R_next _ _ Ht). destruct (m <? next_layer v); auto.
      pose proof (R_dirty_nil _ _ Hs). pose proof (R_dirty_nil _ _ Ht).
      destruct (st_dirty s), (st_dirty t); cbn; auto; intuition congruence.
Qed.

Lemma Sim_exec_all e ops s t : iterates e -> rewinds_above (-2) ops ->
  Sim s t -> fst (exec_all e ops s) = fst (exec_all e ops t) /\ Sim (snd (exec_all e ops s)) (snd (exec_all e ops t)).
Proof.
  intros HI. revert s t. induction ops as [|o ops IH]; intros s t HO H; cbn [exec_all]; auto.
  inversion HO; subst. destruct (Sim_exec e o s t HI H2 H) as [E1 S1].
  destruct (exec e o s), (exec e o t). cbn [fst snd] in *. subst.
  destruct (IH _ _ H3 S1) as [E2 S2]. destruct (exec_all e ops s0), (exec_all e ops s1). cbn [fst snd] in *.
  subst. auto.
Qed.

Lemma rewind_sim e s l fp s1 ops s3 :
  iterates e -> reachable e s -> commit e s = (Ok (l, fp), s1) -> rewinds_above l ops ->
  rewind (snd (exec_all e ops s1)) l = (Ok tt, s3) -> Sim s3 s1.
Proof.
  intros HI HR HC HO HW. destruct (reachable_R e s HI HR) as [v H].
  assert (HP : pending v = []).
  { apply (R_dirty_nil _ _ H). unfold commit in HC. destruct (st_dirty s); congruence. }
  pose proof (R_commit e s v HI H HP) as H1.
  destruct (R_commit_eq e s v H HP) as (prev & _ & EC).
  assert (Hx1 : st_xor s1 = state_ones) by (rewrite HC in EC; injection EC as -> -> ->; reflexivity).
  assert (l = next_layer v) by (rewrite HC in EC; injection EC as -> -> ->; reflexivity). subst l.
  rewrite HC in H1. cbn [snd] in H1. clear EC.
  set (v1 := mkVersions (committed v ++ [staged v]) [] []) in *.
  assert (HN : next_layer v1 = next_layer v + 1).
  { unfold next_layer, v1. cbn. rewrite app_length. cbn. lia. }
  pose proof (R_len _ _ H) as HLen.
  assert (HO2 : rewinds_above (-2) ops).
  { eapply rewinds_weaken; [|eauto]. unfold next_layer. lia. }
  destruct (exec_all_sound e ops s1 v1 HI H1 HO2) as [_ H2].
  pose proof (exec_all_rows_upto e (next_layer v) ops s1 v1 HI H1 ltac:(lia) HO2 HO) as EL.
  destruct (perform_all_upto (next_layer v) ops v1 ltac:(lia) HO) as [EU LU].
  set (s2 := snd (exec_all e ops s1)) in *. set (v2 := snd (perform_all ops v1)) in *.
  assert (HP2 : pending v2 = []).
  { apply (R_dirty_nil _ _ H2). unfold rewind in HW. destruct (_ <? _); [|discriminate].
    destruct (st_dirty s2); congruence. }
  pose proof (R_rewind s2 v2 (next_layer v) H2 HP2 ltac:(unfold next_layer in *; lia)) as H3.
  assert (E3 : s3 = mkStorage (delete_layers_above (st_db s2) (next_layer v)) [] (next_layer v + 1) [] state_ones).
  { unfold rewind in HW. destruct (_ <? _); [|discriminate]. destruct (st_dirty s2); [|discriminate].
    congruence. }
  rewrite <- E3 in H3. split; [|split].
  - rewrite E3. cbn. change (filter _ _) with (rows_upto (next_layer v) s2).
    rewrite EL. apply (rows_upto_all s1 v1); auto. lia.
  - rewrite E3. cbn. auto.
  - exists v1. split; auto. rewrite EU, upto_self in H3 by lia. exact H3.
Qed.

Lemma rewind_restores e s l fp s1 ops s3 :
  iterates e -> reachable e s -> commit e s = (Ok (l, fp), s1) -> rewinds_above l ops ->
  rewind (snd (exec_all e ops s1)) l = (Ok tt, s3) ->
  (forall k m, get_by_hash s3 k m = get_by_hash s1 k m) /\ last_layer s3 = last_layer s1 /\
  forall more, rewinds_above (-2) more ->
    fst (exec_all e more s3) = fst (exec_all e more s1) /\
    (forall k m, get_by_hash (snd (exec_all e more s3)) k m = get_by_hash (snd (exec_all e more s1)) k m) /\
    last_layer (snd (exec_all e more s3)) = last_layer (snd (exec_all e more s1)).
Proof.
  intros HI HR HC HO HW. pose proof (rewind_sim e s l fp s1 ops s3 HI HR HC HO HW) as S.
  destruct (Sim_reads _ _ S). split; auto. split; auto.
  intros more HM. destruct (Sim_exec_all e more _ _ HI HM S) as [E S']. split; auto. now apply Sim_reads.
Qed.

(** C20 *)
Definition same_reads (d d' : db) : Prop :=
  forall k, sql_get_current d k = sql_get_current d' k
         /\ forall l, sql_get_historical d k l = sql_get_historical d' k l.

Lemma existsb_none {A} (f : A -> bool) l : (forall x, In x l -> f x = false) -> existsb f l = false.
Proof. induction l; cbn; intros H; auto. rewrite H by auto. apply IHl. auto. Qed.

Lemma crash_commit e s d :
  iterates e -> reachable e s -> has_uncommitted_changes s = false -> interrupted_commit e s d ->
  same_reads (delete_bad_layers d) (st_db s)
  \/ exists r s', commit e s = (Ok r, s') /\ same_reads (delete_bad_layers d) (st_db s').
Proof.
  intros HI HR HU HIC. destruct (reachable_R e s HI HR) as [v H].
  assert (Hclean : forall s v, R s v -> delete_bad_layers (st_db s) = st_db s).
  { clear. intros s v H. unfold delete_bad_layers. pose proof (R_complete _ _ H) as C. rewrite Forall_forall in C.
    destruct (st_db s) as [ls vs]. cbn in *. f_equal. apply filter_all. intros x _.
    rewrite existsb_none; auto. intros r Hr. rewrite (C r Hr). now rewrite andb_false_r. }
  destruct HIC as [|prev d1 rows Hp Hi Hrows|r s' HC].
  - left. rewrite (Hclean s v H). split; auto.
  - left. unfold insert_layer in Hi. destruct (existsb _ _) eqn:Ex; [discriminate|].
    injection Hi as <-. cbn [db_layers db_values].
    assert (EV : db_values (delete_bad_layers (mkDb (db_layers (st_db s) ++ [mkLayerRow (st_next_id s) (xor_fingerprint prev (st_xor s)) false]) (db_values (st_db s) ++ rows))) = db_values (st_db s)).
    { cbn. rewrite filter_app. rewrite filter_all.
      - rewrite <- (app_nil_r (db_values (st_db s))) at 2. f_equal.
        induction rows as [|r rows IH]; cbn; auto.
        destruct (Hrows r (or_introl eq_refl)) as [_ Er].
        rewrite existsb_app. cbn. rewrite Er, Z.eqb_refl. cbn. rewrite orb_true_r. cbn.
        apply IH. intros r' Hr'. apply Hrows. now right.
      - intros x Hx. rewrite existsb_none; auto. intros r Hr. apply in_app_iff in Hr.
        destruct Hr as [Hr|[<-|[]]].
        + pose proof (R_complete _ _ H) as C. rewrite Forall_forall in C. rewrite (C r Hr). now rewrite andb_false_r.
        + cbn. destruct x as [k x z]. apply (R_rows _ _ H) in Hx. destruct Hx as (i & lg & -> & Hi & _).
          assert (i < length (committed v))%nat by (apply nth_error_Some; congruence).
          rewrite (R_next _ _ H). unfold next_layer. cbn. lia. }
    assert (F : forall P, (forall x, P x = true -> lr_complete x = true) ->
      filter P (db_layers (delete_bad_layers (mkDb (db_layers (st_db s) ++ [mkLayerRow (st_next_id s) (xor_fingerprint prev (st_xor s)) false]) (db_values (st_db s) ++ rows))))
      = filter P (db_layers (st_db s))).
    { intros P HPP. cbn. rewrite filter_app. cbn.
      destruct (P (mkLayerRow (st_next_id s) (xor_fingerprint prev (st_xor s)) false)) eqn:E.
      - apply HPP in E. discriminate.
      - apply app_nil_r. }
    intros k. split; [|intros l]; unfold sql_get_current, sql_get_historical; rewrite EV; do 2 f_equal;
      apply flat_map_ext; intros x; rewrite F; auto; intros r Hr;
      repeat (apply andb_true_iff in Hr; destruct Hr as [Hr ?]); auto.
  - right. exists r, s'. split; auto.
    assert (HP : pending v = []).
    { apply (R_dirty_nil _ _ H). unfold has_uncommitted_changes in HU. destruct (st_dirty s); congruence. }
    pose proof (R_commit e s v HI H HP) as H'. rewrite HC in H'. cbn [snd] in H'.
    rewrite (Hclean s' _ H'). split; auto.
Qed.

Lemma reachable_root e s : iterates e -> reachable e s ->
  exists l, In l (db_layers (st_db s)) /\ lr_id l = initial_layer_id.
Proof.
  intros HI HR. destruct (reachable_R e s HI HR) as [v H].
  assert (In initial_layer_id (map lr_id (db_layers (st_db s)))).
  { rewrite (R_ids _ _ H). apply in_ids_of. pose proof (R_len _ _ H). unfold initial_layer_id. lia. }
  apply in_map_iff in H0. destruct H0 as (l & E & Hl). eauto.
Qed.

Lemma reopen_fails d :
  (exists l, In l (db_layers d) /\ lr_id l = initial_layer_id) -> open_db d = Err ESqlite.
Proof.
  intros (l & Hl & E). unfold open_db, insert_layer.
  replace (existsb _ _) with true; [reflexivity|]. symmetry. apply existsb_exists. exists l. split; auto. lia.
Qed.

(** C21 *)
Definition parity_fp (l : Z) : bytes :=
  if l =? -2 then state_zeros else if Z.even (l + 1) then state_zeros else state_ones.

Definition FpInv (s : storage) : Prop :=
  (forall r, In r (db_layers (st_db s)) -> lr_fp r = parity_fp (lr_id r)) /\
  st_xor s = if st_next_id s =? -1 then state_zeros else state_ones.

Lemma xor_zeros : xor_fingerprint state_zeros state_zeros = state_zeros. Proof. reflexivity. Qed.
Lemma xor_zo : xor_fingerprint state_zeros state_ones = state_ones. Proof. reflexivity. Qed.
Lemma xor_oo : xor_fingerprint state_ones state_ones = state_zeros. Proof. reflexivity. Qed.

Lemma parity_step l :
  -1 <= l -> xor_fingerprint (parity_fp (l - 1)) (if l =? -1 then state_zeros else state_ones) = parity_fp l.
Proof.
  intros Hl. unfold parity_fp.
  destruct (Z.eqb_spec l (-1)) as [->|]; [reflexivity|].
  destruct (Z.eqb_spec l (-2)); [lia|]. destruct (Z.eqb_spec (l - 1) (-2)); [lia|].
  replace (l - 1 + 1) with (Z.pred (l + 1)) by lia. rewrite Z.even_pred, <- Z.negb_even.
  destruct (Z.even (l + 1)); cbn [negb]; reflexivity.
Qed.

Lemma FpInv_exec e o s v :
  R s v -> (match o with Rewind l => -1 <= l | _ => True end) -> FpInv s -> FpInv (snd (exec e o s)).
Proof.
  intros H Ho [HF HX]. destruct o as [k x| | | |l]; cbn [exec snd]; try (split; assumption).
  - rewrite checkpoint_eq. split; assumption.
  - destruct (pending v) as [|p ps] eqn:HP.
    + destruct (R_commit_eq e s v H HP) as (prev & Hp & ->). cbn.
      pose proof (R_len _ _ H) as HLen.
      assert (Eprev : prev = parity_fp (next_layer v - 1)).
      { unfold layer_fingerprint in Hp. destruct (find _ _) as [r|] eqn:F; [|discriminate].
        apply find_some in F. destruct F as [Hr E]. injection Hp as <-.
        rewrite HF by auto. rewrite (R_next _ _ H) in E. f_equal. lia. }
      assert (EF : xor_fingerprint prev (st_xor s) = parity_fp (next_layer v)).
      { rewrite HX, Eprev, (R_next _ _ H). apply parity_step. unfold next_layer. lia. }
      split; cbn.
      * intros r Hr. apply in_app_iff in Hr. destruct Hr as [Hr|[<-|[]]]; auto.
      * destruct (Z.eqb_spec (next_layer v + 1) (-1)); auto. unfold next_layer in *. lia.
    + unfold commit. destruct (st_dirty s) eqn:D; [|split; assumption].
      apply (R_dirty_nil _ _ H) in D. congruence.
  - unfold rewind. destruct (l <? st_next_id s); [|split; assumption].
    destruct (st_dirty s); [|split; assumption]. cbn. split; cbn.
    + intros r Hr. apply filter_In in Hr. apply HF. tauto.
    + destruct (Z.eqb_spec (l + 1) (-1)); auto. lia.
Qed.

Lemma FpInv_exec_all e ops s v :
  iterates e -> R s v -> rewinds_above (-1) ops -> FpInv s -> FpInv (snd (exec_all e ops s)).
Proof.
  intros HI. revert s v. induction ops as [|o ops IH]; intros s v H HO HF; cbn [exec_all]; auto.
  inversion HO; subst.
  assert (H2' : match o with Rewind l => -2 <= l | _ => True end) by (destruct o; auto; lia).
  destruct (exec_sound e o s v HI H H2') as [_ H1].
  pose proof (FpInv_exec e o s v H H2 HF) as F1.
  destruct (exec e o s) as [r s1], (perform o v) as [r' v1]. cbn [snd] in *.
  specialize (IH s1 v1 H1 H3 F1). destruct (exec_all e ops s1). exact IH.
Qed.

Lemma fingerprint_by_layer e ops :
  iterates e -> rewinds_above (-1) ops ->
  exists l, last_layer (snd (exec_all e ops fresh)) = Ok (l, parity_fp l).
Proof.
  intros HI HO.
  assert (HO2 : rewinds_above (-2) ops) by (eapply rewinds_weaken; [|eauto]; lia).
  destruct (exec_all_sound e ops _ _ HI R_fresh HO2) as [_ H].
  assert (F : FpInv (snd (exec_all e ops fresh))).
  { apply FpInv_exec_all with (v := empty_versions); auto. apply R_fresh. split; [|reflexivity].
    cbn. intros r [<-|[]]. reflexivity. }
  destruct (R_last_layer _ _ H) as (fp & EL & EF). eexists. rewrite EL. f_equal. f_equal.
  unfold layer_fingerprint in EF. destruct (find _ _) as [r|] eqn:Fd; [|discriminate].
  apply find_some in Fd. destruct Fd as [Hr E]. injection EF as <-. rewrite (proj1 F) by auto. f_equal. lia.
Qed.
