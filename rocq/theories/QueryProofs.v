(** Proofs about the client's view of an account's storage. *)
From Coq Require Import String List NArith ZArith Bool Lia ZifyBool ZifyNat ZifyN.
From Verif Require Import Base Text CodecModel JsonModel StorageModel GlobalModel QueryModel QuerySpec.
Import ListNotations.
Open Scope list_scope.
Open Scope N_scope.

Lemma digits_value bs : digits bs = be_value bs.
Proof. induction bs as [|b bs IH]; [reflexivity|]. cbn [digits]. now rewrite be_value_cons, IH. Qed.

(** ** Integers *)
Lemma upto8 k : 1 <= k <= 8 -> k = 1 \/ k = 2 \/ k = 3 \/ k = 4 \/ k = 5 \/ k = 6 \/ k = 7 \/ k = 8.
Proof. lia. Qed.
Lemma extend_at (val B s : N) : 0 < B -> 2 ^ 64 = B * 2 ^ s -> val < B -> (exists H, B = 2 * H /\ 2 ^ 63 = H * 2 ^ s) ->
  (as_i64 (N.shiftl val s mod 2 ^ 64) / 2 ^ Z.of_N s)%Z = if val <? B / 2 then Z.of_N val else (Z.of_N val - Z.of_N B)%Z.
Proof.
  intros HB E L (H & EH & E63). rewrite N.shiftl_mul_pow2. assert (P : 0 < 2 ^ s) by (apply N.neq_0_lt_0, N.pow_nonzero; discriminate).
  rewrite N.mod_small by (rewrite E; apply N.mul_lt_mono_pos_r; auto). unfold as_i64.
  assert (D : B / 2 = H) by (rewrite EH, N.mul_comm; apply N.div_mul; discriminate). rewrite D.
  assert (PZ : (2 ^ Z.of_N s = Z.of_N (2 ^ s))%Z) by now rewrite N2Z.inj_pow.
  assert (C : (val * 2 ^ s <? 2 ^ 63) = (val <? H)).
  { rewrite E63. destruct (N.ltb_spec val H) as [X|X]; destruct (N.ltb_spec (val * 2 ^ s) (H * 2 ^ s)) as [Y|Y]; auto; [apply N.lt_nge in X|apply N.lt_nge in Y]; nia. }
  rewrite C. destruct (val <? H).
  - rewrite PZ, N2Z.inj_mul. apply Z.div_mul. lia.
  - replace (Z.of_N (val * 2 ^ s) - 2 ^ 64)%Z with ((Z.of_N val - Z.of_N B) * Z.of_N (2 ^ s))%Z.
    + rewrite PZ. apply Z.div_mul. lia.
    + change (2 ^ 64)%Z with (Z.of_N (2 ^ 64)). rewrite E, !N2Z.inj_mul. lia.
Qed.
Lemma extend_sign_eq val k : 1 <= k <= 8 -> val < 2 ^ (8 * k) ->
  extend_sign val k = if val <? 2 ^ (8 * k) / 2 then Z.of_N val else (Z.of_N val - Z.of_N (2 ^ (8 * k)))%Z.
Proof.
  intros K L. unfold extend_sign. apply extend_at; auto.
  - apply N.neq_0_lt_0, N.pow_nonzero. discriminate.
  - rewrite <- N.pow_add_r. f_equal. lia.
  - exists (2 ^ (8 * k - 1)). split.
    + change 2 with (2 ^ 1) at 2. rewrite <- N.pow_add_r. f_equal. lia.
    + rewrite <- N.pow_add_r. f_equal. lia.
Qed.
Lemma pow256 k : 256 ^ k = 2 ^ (8 * k).
Proof. change 256 with (2 ^ 8). now rewrite <- N.pow_mul_r. Qed.
(** The number is the one in two's complement. *)
Lemma twos_complement val k z : 1 <= k <= 8 -> val < 2 ^ (8 * k) ->
  z = extend_sign val k <->
  (z mod 2 ^ (8 * Z.of_N k) = Z.of_N val /\ - 2 ^ (8 * Z.of_N k - 1) <= z < 2 ^ (8 * Z.of_N k - 1))%Z.
Proof.
  intros K L. rewrite extend_sign_eq by auto.
  assert (PB : (2 ^ (8 * Z.of_N k) = Z.of_N (2 ^ (8 * k)))%Z) by (rewrite N2Z.inj_pow; f_equal; lia).
  assert (PH : (2 ^ (8 * Z.of_N k) = 2 * 2 ^ (8 * Z.of_N k - 1))%Z).
  { rewrite <- Z.pow_succ_r by lia. f_equal. lia. }
  assert (D : 2 ^ (8 * k) / 2 = 2 ^ (8 * k - 1)).
  { replace (2 ^ (8 * k)) with (2 ^ (8 * k - 1) * 2); [apply N.div_mul; discriminate|]. change 2 with (2 ^ 1) at 2. rewrite <- N.pow_add_r. f_equal. lia. }
  assert (PHN : (2 ^ (8 * Z.of_N k - 1) = Z.of_N (2 ^ (8 * k - 1)))%Z) by (rewrite N2Z.inj_pow; f_equal; lia).
  rewrite D. rewrite PB in *. rewrite PHN in *. set (B := 2 ^ (8 * k)) in *. set (H := 2 ^ (8 * k - 1)) in *. clearbody B H. split.
  - intros ->. destruct (N.ltb_spec val H) as [X|X].
    + split; [apply Z.mod_small; lia|lia].
    + split; [|lia]. replace (Z.of_N val - Z.of_N B)%Z with (Z.of_N val + (-1) * Z.of_N B)%Z by lia. rewrite Z.mod_add by lia. apply Z.mod_small. lia.
  - intros [M R]. pose proof (Z.div_mod z (Z.of_N B) ltac:(lia)) as DM. rewrite M in DM.
    destruct (N.ltb_spec val H) as [X|X].
    + assert (z / Z.of_N B = 0)%Z by nia. nia.
    + assert (z / Z.of_N B = -1)%Z by nia. nia.
Qed.

(** ** Rendering *)
Lemma firstn_all_n (bs : bytes) : firstn (N.to_nat (nlen bs)) bs = bs.
Proof. unfold nlen. rewrite Nnat.Nat2N.id. apply firstn_all. Qed.
Lemma render_int_eq v bs s : bytes_ok bs -> nlen bs = q_length v ->
  render_int v bs s =
  if 8 <? nlen bs then Some None
  else if nlen bs =? 0 then None
  else Some (Some (JNum (if s then extend_sign (be_value bs) (nlen bs) else Z.of_N (be_value bs)))).
Proof.
  intros Ok E. unfold render_int. rewrite <- E. destruct (N.ltb_spec 8 (nlen bs)) as [L|L]; [reflexivity|]. rewrite N.ltb_irrefl, N.sub_diag, firstn_all_n, app_nil_r.
  unfold read_int, read_uint. destruct (N.eqb_spec (nlen bs) 0) as [Z|Z]; [rewrite Z; destruct s; reflexivity|].
  replace ((1 <=? nlen bs) && (nlen bs <=? 8) && (nlen bs <=? nlen bs)) with true by (symmetry; rewrite !andb_true_iff, !N.leb_le; lia).
  rewrite firstn_all_n. destruct s; reflexivity.
Qed.
Lemma render_shows v bs j : bytes_ok bs -> nlen bs = q_length v ->
  render v bs = Some (Some j) <-> shows (q_type v) bs j.
Proof.
  intros Ok E. unfold render. destruct (q_type v) as [|s| | | |].
  - destruct bs as [|b [|b2 bs]]; cbn [render_bool].
    + split; [discriminate|intros X; inversion X].
    + destruct b as [|p]; [|destruct p]; (split; [intros X; try discriminate X; try (injection X as <-; constructor)|intros X; inversion X; subst; try reflexivity]).
    + destruct b as [|p]; [|destruct p]; (split; [discriminate|intros X; inversion X]).
  - rewrite render_int_eq by auto. destruct (N.ltb_spec 8 (nlen bs)) as [L|L]; [split; [discriminate|intros X; inversion X; subst; lia]|].
    destruct (N.eqb_spec (nlen bs) 0) as [Z|Z]; [split; [discriminate|intros X; inversion X; subst; lia]|].
    pose proof (be_value_bound bs Ok) as B. rewrite pow256 in B. destruct s.
    + pose proof (twos_complement (be_value bs) (nlen bs)) as T. split.
      * intros X. assert (X' : j = JNum (extend_sign (be_value bs) (nlen bs))) by congruence. subst j. destruct (proj1 (T _ ltac:(lia) B) eq_refl) as [T1 T2]. constructor; [lia| |exact T2]. now rewrite digits_value.
      * intros X. inversion X as [|bs' z K T1 T2| | | | |]. subst. do 3 f_equal. symmetry. apply T; [lia|exact B|]. rewrite <- digits_value. auto.
    + split.
      * intros X. assert (X' : j = JNum (Z.of_N (be_value bs))) by congruence. subst j. rewrite <- digits_value. constructor. lia.
      * intros X. inversion X. subst. now rewrite digits_value.
  - unfold render_hex. split.
    + intros [= <-]. cbn [app]. constructor; [now apply unhex_hex_upper|reflexivity].
    + intros X. inversion X. subst. reflexivity.
  - split; [discriminate|intros X; inversion X].
  - unfold render_hex. split.
    + intros X. assert (X' : j = JStr (txt "0x" ++ hex_upper bs)) by congruence. subst j. constructor; [now apply unhex_hex_upper|reflexivity].
    + intros X. inversion X. subst. reflexivity.
  - unfold render_hex. split.
    + intros X. assert (X' : j = JStr (txt "0x" ++ hex_upper bs)) by congruence. subst j. constructor; [now apply unhex_hex_upper|reflexivity].
    + intros X. inversion X. subst. reflexivity.
Qed.
Lemma render_int_panics v bs s :
  render_int v bs s = None <-> q_length v <= 8 /\ (nlen bs < q_length v \/ nlen bs = 0 \/ 8 < nlen bs).
Proof.
  unfold render_int. destruct (N.ltb_spec 8 (q_length v)) as [L|L]; [split; [discriminate|lia]|].
  destruct (N.ltb_spec (nlen bs) (q_length v)) as [L2|L2]; [split; auto|].
  set (buf := firstn (N.to_nat (q_length v)) bs ++ repeat 0 (N.to_nat (nlen bs - q_length v))).
  assert (Lb : nlen buf = nlen bs).
  { unfold buf, nlen in *. rewrite app_length, repeat_length, firstn_length. lia. }
  assert (R : read_uint buf (nlen bs) = None <-> nlen bs = 0 \/ 8 < nlen bs).
  { unfold read_uint. rewrite Lb, N.leb_refl, andb_true_r. destruct (N.leb_spec 1 (nlen bs)), (N.leb_spec (nlen bs) 8); cbn [andb]; split; try discriminate; try reflexivity; try lia. }
  unfold read_int. clearbody buf. destruct s, (read_uint buf (nlen bs)) as [n|]; cbn [obind]; (split; [try discriminate|]); try (intros _; reflexivity); intros H.
  - exfalso. assert (X : Some n = None) by (apply R; lia). discriminate X.
  - split; [exact L|]. destruct (proj1 R eq_refl); auto.
  - exfalso. assert (X : Some n = None) by (apply R; lia). discriminate X.
  - split; [exact L|]. destruct (proj1 R eq_refl); auto.
Qed.
Lemma render_panics v bs :
  render v bs = None <-> q_type v = TBalance \/ (q_type v = TBool /\ nlen bs <> 1) \/
    ((exists s, q_type v = TInt s) /\ q_length v <= 8 /\ (nlen bs < q_length v \/ nlen bs = 0 \/ 8 < nlen bs)).
Proof.
  unfold render. destruct (q_type v) as [|s| | | |]; unfold render_hex.
  - destruct bs as [|b [|b2 bs]]; cbn [render_bool].
    + split; auto. intros _. right. left. split; [reflexivity|discriminate].
    + split; [destruct b as [|p]; [|destruct p]; discriminate|]. intros [X|[[_ X]|[[s X] _]]]; try discriminate X. now contradiction X.
    + split; [|destruct b as [|p]; [|destruct p]; reflexivity]. intros _. right. left. split; [reflexivity|]. rewrite !nlen_cons. lia.
  - rewrite render_int_panics. split; [eauto 6|]. intros [X|[[X _]|[_ X]]]; try discriminate X. exact X.
  - split; [discriminate|]. intros [X|[[X _]|[[s X] _]]]; discriminate X.
  - split; auto.
  - split; [discriminate|]. intros [X|[[X _]|[[s X] _]]]; discriminate X.
  - split; [discriminate|]. intros [X|[[X _]|[[s X] _]]]; discriminate X.
Qed.

(** ** The schema *)
Lemma schema_add s v id : schema_var (add_var s v) id = if q_id v =? id then Some v else schema_var s id.
Proof.
  unfold schema_var, add_var. cbn [find fst]. destruct (N.eqb_spec (q_id v) id) as [->|Hne]; [reflexivity|]. f_equal.
  induction s as [|e s IH]; [reflexivity|]. cbn [filter find]. destruct (N.eqb_spec (fst e) (q_id v)) as [X|X]; cbn [negb find].
  - destruct (N.eqb_spec (fst e) id); [congruence|exact IH].
  - now rewrite IH.
Qed.
Lemma schema_added vs id : schema_var (added vs) id = find (fun v => q_id v =? id) (rev vs).
Proof.
  unfold added. induction vs as [|v vs IH] using rev_ind; [reflexivity|]. rewrite fold_left_app, rev_app_distr. cbn [fold_left rev app find].
  rewrite schema_add. destruct (q_id v =? id); auto.
Qed.
Lemma latest_find vs id v : schema_var (added vs) id = Some v <-> latest vs id v.
Proof.
  rewrite schema_added. unfold latest. induction vs as [|w vs IH] using rev_ind.
  - cbn. split; [discriminate|]. intros (l1 & l2 & E & _). destruct l1; discriminate E.
  - rewrite rev_app_distr. cbn [rev app find]. destruct (N.eqb_spec (q_id w) id) as [X|X].
    + split.
      * intros [= ->]. exists vs, []. split; [reflexivity|]. split; [exact X|intros ? []].
      * intros (l1 & l2 & E & I & F). destruct l2 as [|u l2] using rev_ind.
        -- apply app_inj_tail in E. destruct E as [_ ->]. reflexivity.
        -- exfalso. rewrite app_comm_cons, app_assoc in E. apply app_inj_tail in E. destruct E as [_ ->]. apply (F u); auto. apply in_or_app. right. now left.
    + rewrite IH. split.
      * intros (l1 & l2 & -> & I & F). exists l1, (l2 ++ [w]). rewrite <- app_assoc. split; [reflexivity|]. split; auto.
        intros u Hu. apply in_app_iff in Hu. destruct Hu as [Hu|[<-|[]]]; auto.
      * intros (l1 & l2 & E & I & F). destruct l2 as [|u l2 _] using rev_ind.
        -- apply app_inj_tail in E. destruct E as [_ ->]. contradiction.
        -- rewrite app_comm_cons, app_assoc in E. apply app_inj_tail in E. destruct E as [-> _]. exists l1, l2. split; [reflexivity|]. split; auto.
           intros x Hx. apply F. apply in_or_app. now left.
Qed.

(** ** Queries *)
Lemma run_length {St} (raw : St -> N -> qvar -> option bytes * St) s ids : forall st l, fst (run_query raw s ids st) = Some l -> List.length l = List.length ids.
Proof.
  induction ids as [|id ids IH]; intros st l; cbn [run_query]; [intros [= <-]; reflexivity|]. destruct (read_var raw s st id) as [[j|] st1]; [|discriminate].
  specialize (IH st1). destruct (run_query raw s ids st1) as [[l1|] st2]; [|discriminate]. intros [= <-]. cbn. f_equal. apply IH. reflexivity.
Qed.
Lemma run_nth raw s ids l : fst (run_query (reading raw) s ids tt) = Some l ->
  forall i id, nth_error ids i = Some id -> exists j, nth_error l i = Some j /\ fst (read_var (reading raw) s tt id) = Some j.
Proof.
  revert l. induction ids as [|id ids IH]; intros l E i id' Hi; [destruct i; discriminate Hi|]. cbn [run_query] in E.
  destruct (read_var (reading raw) s tt id) as [[j|] st1] eqn:Er; [|discriminate E]. destruct st1.
  destruct (run_query (reading raw) s ids tt) as [[l1|] st2]; [|discriminate E]. injection E as <-. destruct i as [|i].
  - injection Hi as <-. exists j. split; [reflexivity|]. now rewrite Er.
  - apply (IH l1 eq_refl i id' Hi).
Qed.
Lemma run_panics raw s ids : fst (run_query (reading raw) s ids tt) = None <-> exists id, In id ids /\ fst (read_var (reading raw) s tt id) = None.
Proof.
  induction ids as [|id ids IH]; cbn [run_query]; [split; [discriminate|intros (? & [] & _)]|].
  destruct (read_var (reading raw) s tt id) as [[j|] []] eqn:Er.
  - destruct (run_query (reading raw) s ids tt) as [[l1|] st2]; cbn [option_map fst] in *.
    + split; [discriminate|]. intros (x & [<-|Hx] & E); [now rewrite Er in E|]. discriminate (proj2 IH (ex_intro _ x (conj Hx E))).
    + split; [|reflexivity]. intros _. destruct (proj1 IH eq_refl) as (x & Hx & E). exists x. split; [now right|exact E].
  - split; [|reflexivity]. intros _. exists id. split; [now left|now rewrite Er].
Qed.

(** ** Little-endian integers shown big-endian *)
Lemma value_inj a b : bytes_ok a -> bytes_ok b -> nlen a = nlen b -> be_value a = be_value b -> a = b.
Proof.
  intros Ha Hb L E. rewrite <- (be_bytes_be_value a Ha), <- (be_bytes_be_value b Hb), E. f_equal. unfold nlen in L. lia.
Qed.
Lemma shown_palindrome bs : bytes_ok bs -> be_value bs = le_value bs <-> rev bs = bs.
Proof.
  intros Ok. unfold le_value. split; [|now intros ->]. intros E. symmetry. apply value_inj; auto.
  - apply Forall_rev. exact Ok.
  - unfold nlen. now rewrite rev_length.
Qed.
Lemma shows_inj t a b j : bytes_ok a -> bytes_ok b -> nlen a = nlen b -> shows t a j -> shows t b j -> a = b.
Proof.
  intros Ha Hb L Sa Sb. destruct Sa as [a K|a z K M R| | |a h H1 H2|a h H1 H2|a h H1 H2]; inversion Sb; subst; try reflexivity.
  - apply value_inj; auto. rewrite <- !digits_value. now apply N2Z.inj.
  - apply value_inj; auto. rewrite <- !digits_value. apply N2Z.inj. rewrite <- M. rewrite L. assumption.
  - apply hex_upper_inj; auto.
  - apply hex_upper_inj; auto.
  - apply hex_upper_inj; auto.
Qed.
