(** Proofs about the host of contract tests. *)
From Coq Require Import List NArith Bool Lia.
From Verif Require Import Base ReceiptModel ReceiptProofs SdkModel SdkProofs AbiModel AbiSpec AbiProofs HostModel HostSpec.
Import ListNotations.
Open Scope N_scope.

Lemma beq_spec a b : reflect (a = b) (beq a b).
Proof. unfold beq. destruct (list_eq_dec N.eq_dec a b); now constructor. Qed.
Lemma beq_refl a : beq a a = true.
Proof. destruct (beq_spec a a); congruence. Qed.

(** ** Arguments *)
Lemma encoded_eq rs : encoded rs = flat_map format (map rust_value rs).
Proof. induction rs as [|r rs IH]; [reflexivity|]. unfold encoded in *. cbn [flat_map map]. rewrite IH. reflexivity. Qed.
Lemma calldata_arguments rs : arguments rs -> calldata_of rs = Some (encoded rs).
Proof.
  intros [[ts T] A]. unfold calldata_of. destruct (tuple_size_defined rs A) as [n E]. rewrite E. cbn [obind].
  pose proof (tuple_size ts rs n T A E) as ->. pose proof (appends_tuple ts rs T) as Ap.
  destruct (proj2 (appends_fits _ _ Ap (nlen (flat_map format (map rust_value rs)))) ltac:(lia)) as [w Ew]. rewrite Ew. cbn [obind].
  rewrite encoded_eq. exact (appends_new _ _ Ap _ w Ew).
Qed.
Lemma calldata_array rs l : In (RArray l) rs -> calldata_of rs = None.
Proof.
  intros H. unfold calldata_of. enough (E : tuple_byte_size rs = None) by now rewrite E.
  induction rs as [|r rs IH]; [destruct H|]. unfold tuple_byte_size in *. cbn [fold_right]. destruct H as [->|H].
  - pose proof (array_size_aborts l : byte_size (RArray l) = None) as X. now rewrite X.
  - destruct (byte_size r); [|reflexivity]. cbn [obind]. now rewrite IH.
Qed.

(** ** The table *)
Section Table.
Variable mem : N -> bytes.
Variable sees : table -> N -> N -> bool.
Hypothesis S1 : finds_itself sees.
Variable pts : list N.
Hypothesis U : forall p q, In p pts -> In q pts -> mem p = mem q -> p = q.

Definition keyed (t : table) : Prop := forall e, In e t -> In (fst e) pts.
Lemma matches_eq t p e : keyed t -> In p pts -> In e t -> matches mem sees t p e = (fst e =? p).
Proof.
  intros K Hp He. unfold matches. destruct (N.eqb_spec (fst e) p) as [->|Hne].
  - rewrite S1. apply bytes_eqb_spec. reflexivity.
  - destruct (bytes_eqb (mem p) (mem (fst e))) eqn:E; [|now rewrite andb_false_r]. apply bytes_eqb_spec in E.
    exfalso. apply Hne. symmetry. apply U; auto.
Qed.
Lemma find_ext_in {A} (f g : A -> bool) l : (forall x, In x l -> f x = g x) -> find f l = find g l.
Proof. induction l as [|x l IH]; intros H; [reflexivity|]. cbn [find]. rewrite (H x) by now left. rewrite IH; [reflexivity|]. intros y Hy. apply H. now right. Qed.
Lemma replace_ext_in f g v (l : table) : (forall x, In x l -> f x = g x) -> replace f v l = replace g v l.
Proof. induction l as [|x l IH]; intros H; [reflexivity|]. cbn [replace]. rewrite (H x) by now left. rewrite IH; [reflexivity|]. intros y Hy. apply H. now right. Qed.
Definition at_key (p : N) (e : N * N) : bool := fst e =? p.
Lemma get_eq t p : keyed t -> In p pts -> get mem sees t p = option_map snd (find (at_key p) t).
Proof. intros K Hp. unfold get. f_equal. apply find_ext_in. intros e He. now apply matches_eq. Qed.
Lemma insert_eq t p v : keyed t -> In p pts ->
  insert mem sees t p v = match find (at_key p) t with Some _ => replace (at_key p) v t | None => t ++ [(p, v)] end.
Proof.
  intros K Hp. unfold insert. rewrite (find_ext_in (matches mem sees t p) (at_key p)) by (intros e He; now apply matches_eq).
  destruct (find (at_key p) t); [|reflexivity]. apply replace_ext_in. intros e He. now apply matches_eq.
Qed.
Lemma replace_keys m v t : map fst (replace m v t) = map fst t.
Proof. induction t as [|e t IH]; [reflexivity|]. cbn [replace]. destruct (m e); cbn [map fst]; congruence. Qed.
Lemma insert_keyed t p v : keyed t -> In p pts -> keyed (insert mem sees t p v).
Proof.
  intros K Hp e He. rewrite insert_eq in He by auto. destruct (find (at_key p) t).
  - apply (in_map fst) in He. rewrite replace_keys in He. apply in_map_iff in He. destruct He as (e' & <- & He). auto.
  - apply in_app_iff in He. destruct He as [He|[<-|[]]]; auto.
Qed.
Lemma get_insert t p q v : keyed t -> In p pts -> In q pts ->
  get mem sees (insert mem sees t p v) q = if p =? q then Some v else get mem sees t q.
Proof.
  intros K Hp Hq. rewrite get_eq by auto using insert_keyed. rewrite get_eq by auto. rewrite insert_eq by auto. clear K.
  induction t as [|e t IH]; cbn [find app].
  - unfold at_key. cbn [fst]. destruct (p =? q); reflexivity.
  - destruct (at_key p e) eqn:Ep.
    + cbn [replace]. rewrite Ep. cbn [find]. unfold at_key in *. cbn [fst]. apply N.eqb_eq in Ep. rewrite Ep. destruct (p =? q); reflexivity.
    + unfold at_key at 4 in IH. destruct (find (at_key p) t) as [e'|] eqn:Ef.
      * cbn [replace find]. rewrite Ep. cbn [find]. destruct (at_key q e) eqn:Eq; [|exact IH].
        unfold at_key in *. apply N.eqb_eq in Eq. subst q. rewrite N.eqb_sym in Ep. now rewrite Ep.
      * cbn [app find]. destruct (at_key q e) eqn:Eq; [|exact IH].
        unfold at_key in *. apply N.eqb_eq in Eq. subst q. rewrite N.eqb_sym in Ep. now rewrite Ep.
Qed.
Definition amount_at (t : table) (p : N) : N := match get mem sees t p with Some n => n | None => 0 end.
Lemma amount_insert t p q v : keyed t -> In p pts -> In q pts ->
  amount_at (insert mem sees t p v) q = if p =? q then v else amount_at t q.
Proof. intros. unfold amount_at. rewrite get_insert by auto. now destruct (p =? q). Qed.

(** ** The host *)
Record shows (h : host) (w : world) : Prop := {
  sh_calldata : h_calldata h = w_calldata w;
  sh_returndata : h_returndata h = w_returndata w;
  sh_keyed : keyed (h_accounts h);
  sh_balance : forall p, In p pts -> amount_at (h_accounts h) p = w_balance w (mem p);
  sh_value : h_value h = w_value w;
  sh_principal : option_map mem (h_principal h) = w_principal w;
  sh_target : option_map mem (h_target h) = w_target w;
  sh_target_in : forall p, h_target h = Some p -> In p pts;
  sh_layer : h_layer h = w_layer w;
  sh_logs : h_logs h = w_logs w;
}.
Lemma shows_new : shows host_new fresh.
Proof. constructor; try reflexivity; try discriminate. intros e []. Qed.

Lemma transfer_expected h w dst n : shows h w -> In dst pts -> w_target w <> Some (mem dst) ->
  match host_transfer mem sees h dst n with
  | Some h' => expected (Transfer (mem dst) n) w = Some (Done, after (Transfer (mem dst) n) w) /\ shows h' (after (Transfer (mem dst) n) w)
  | None => expected (Transfer (mem dst) n) w = None
  end.
Proof.
  intros [A B K C D E F G I J] Hd Hne. unfold after. destruct w as [cd rd b v pr t l lg]. cbn [w_calldata w_returndata w_balance w_value w_principal w_target w_layer w_logs expected] in *.
  unfold host_transfer, balance. destruct (h_target h) as [src|] eqn:Et; cbn [option_map obind] in *; [|now subst t].
  pose proof (G src eq_refl) as Hs. subst t. change (balance_of mem sees h) with (amount_at (h_accounts h)). rewrite !C by auto.
  assert (Hsd : mem src <> mem dst) by congruence. assert (Hp : src <> dst) by congruence.
  unfold ensure, amount_sub, amount_add, u64_op. unfold ensure. destruct (N.leb_spec n (b (mem src))) as [L|L]; cbn [obind andb]; [|reflexivity].
  assert (M : moved (mem src) (mem dst) n b (mem dst) = b (mem dst) + n).
  { unfold moved. destruct (beq_spec (mem dst) (mem src)); [congruence|]. rewrite beq_refl. lia. }
  rewrite M. destruct (N.leb_spec (b (mem dst) + n) u64_max) as [L2|L2]; cbn [obind]; [|reflexivity].
  split; [reflexivity|]. constructor; cbn [h_calldata h_returndata h_accounts h_value h_principal h_target h_layer h_logs with_accounts w_calldata w_returndata w_balance w_value w_principal w_target w_layer w_logs]; auto.
  - apply insert_keyed; auto using insert_keyed.
  - intros p Hpp. rewrite amount_insert by auto using insert_keyed. rewrite amount_insert by auto. rewrite C by auto. unfold moved.
    destruct (N.eqb_spec dst p) as [->|N1].
    + destruct (beq_spec (mem p) (mem src)); [congruence|]. rewrite beq_refl. lia.
    + destruct (beq_spec (mem p) (mem dst)) as [X|_]; [exfalso; apply N1; symmetry; auto|].
      destruct (N.eqb_spec src p) as [->|N2]; [rewrite beq_refl; lia|].
      destruct (beq_spec (mem p) (mem src)) as [X|_]; [exfalso; apply N2; symmetry; auto|lia].
  - now rewrite Et.
  - intros p X. apply G. congruence.
Qed.
Lemma step_expected o h w : shows h w -> (forall p, In p (pointers o) -> In p pts) -> plain (by_bytes mem o) w ->
  fst (host_step mem sees o h) = answered (by_bytes mem o) w /\ shows (snd (host_step mem sees o h)) (after (by_bytes mem o) w).
Proof.
  intros R Hin Pl. pose proof R as [A B K C D E F G I J].
  destruct o as [rs|x|x|a n|n|a|a|n|a n|m c| | | | | | | | |a|]; cbn [by_bytes plain pointers] in *; unfold answered, after;
    try (assert (Ha : In a pts) by (apply Hin; now left));
    destruct w as [cd rd b v pr t l lg]; cbn [w_calldata w_returndata w_balance w_value w_principal w_target w_layer w_logs expected] in *;
    cbn [host_step change tell option_map fst snd].
  - rewrite calldata_arguments by auto. cbn [obind change fst snd]. split; [reflexivity|]. constructor; auto.
  - split; [reflexivity|]. constructor; auto.
  - split; [reflexivity|]. constructor; auto.
  - split; [reflexivity|]. constructor; cbn [with_accounts h_accounts h_calldata h_returndata h_value h_principal h_target h_layer h_logs w_balance]; auto using insert_keyed.
    intros p Hp. rewrite amount_insert by auto. rewrite C by auto. unfold given. destruct (N.eqb_spec a p) as [->|Hne]; [now rewrite beq_refl|].
    destruct (beq_spec (mem p) (mem a)) as [X|_]; [exfalso; apply Hne; auto|reflexivity].
  - split; [reflexivity|]. constructor; auto.
  - split; [reflexivity|]. constructor; auto.
  - split; [reflexivity|]. constructor; cbn [with_target h_target h_calldata h_returndata h_accounts h_value h_principal h_layer h_logs option_map]; auto. intros p [= <-]. exact Ha.
  - split; [reflexivity|]. constructor; auto.
  - pose proof (transfer_expected h _ a n R Ha Pl) as X. unfold after in X. cbn [expected] in X. destruct (host_transfer mem sees h a n) as [h'|].
    + destruct X as [-> X]. split; [reflexivity|exact X].
    + rewrite X. split; [reflexivity|exact R].
  - split; [reflexivity|]. constructor; cbn [with_logs h_logs w_logs]; auto. congruence.
  - split; [reflexivity|]. constructor; cbn; auto; try discriminate. intros p Hp. rewrite <- (Pl (mem p)). now apply C.
  - rewrite A. destruct cd; split; try reflexivity; exact R.
  - rewrite B. split; [reflexivity|exact R].
  - rewrite D. destruct v; split; try reflexivity; exact R.
  - destruct (h_principal h); cbn [option_map] in *; subst pr; (split; [reflexivity|exact R]).
  - destruct (h_target h); cbn [option_map] in *; subst t; (split; [reflexivity|exact R]).
  - rewrite I. destruct l; split; try reflexivity; exact R.
  - unfold balance. destruct (h_target h) as [p|]; cbn [option_map] in *; subst t; (split; [|exact R]); [|reflexivity].
    change (balance_of mem sees h p) with (amount_at (h_accounts h) p). rewrite C by auto. reflexivity.
  - split; [|exact R]. change (balance_of mem sees h a) with (amount_at (h_accounts h) a). rewrite C by auto. reflexivity.
  - rewrite J. split; [reflexivity|exact R].
Qed.
Lemma run_expected os : forall h w, shows h w -> (forall p, In p (flat_map pointers os) -> In p pts) -> all_plain (map (by_bytes mem) os) w ->
  fst (host_run mem sees os h) = answers (map (by_bytes mem) os) w.
Proof.
  induction os as [|o os IH]; intros h w R Hin Pl; [reflexivity|]. cbn [map all_plain flat_map] in *. destruct Pl as [P1 P2].
  destruct (step_expected o h w R (fun p Hp => Hin p (in_or_app _ _ _ (or_introl Hp))) P1) as [X Y].
  cbn [host_run answers]. destruct (host_step mem sees o h) as [a h1]. cbn [fst snd] in X, Y.
  specialize (IH h1 _ Y (fun p Hp => Hin p (in_or_app _ _ _ (or_intror Hp))) P2). destruct (host_run mem sees os h1) as [l h2]. cbn [fst] in *. congruence.
Qed.
End Table.

(** ** No trace of a panic *)
Lemma panic_no_trace mem sees o h : fst (host_step mem sees o h) = None -> snd (host_step mem sees o h) = h.
Proof.
  destruct o; cbn [host_step tell fst snd]; try reflexivity; try discriminate; unfold change.
  - destruct (obind _ _); [discriminate|reflexivity].
  - destruct (host_transfer mem sees h a n); [discriminate|reflexivity].
Qed.

(** ** Reset *)
Definition same_but_coins (h k : host) : Prop :=
  h_calldata h = h_calldata k /\ h_returndata h = h_returndata k /\ h_value h = h_value k /\ h_principal h = h_principal k
  /\ h_target h = h_target k /\ h_layer h = h_layer k /\ h_logs h = h_logs k.
Lemma same_step mem sees o h k : ~ about_coins o -> same_but_coins h k ->
  fst (host_step mem sees o h) = fst (host_step mem sees o k) /\ same_but_coins (snd (host_step mem sees o h)) (snd (host_step mem sees o k)).
Proof.
  intros N1 R. pose proof R as (A & B & C & D & E & F & G).
  destruct o; cbn [about_coins] in N1; try tauto; cbn [host_step tell fst snd]; try (split; [congruence|exact R]);
    unfold change; try (split; [reflexivity|]; unfold same_but_coins; cbn; repeat (split; [congruence|]); congruence).
  destruct (calldata_of rs); cbn [obind fst snd]; (split; [reflexivity|]); [|exact R]. unfold same_but_coins. cbn. repeat (split; [congruence|]). congruence.
Qed.
Lemma same_run mem sees os : forall h k, Forall (fun o => ~ about_coins o) os -> same_but_coins h k ->
  fst (host_run mem sees os h) = fst (host_run mem sees os k).
Proof.
  induction os as [|o os IH]; intros h k N1 R; [reflexivity|]. inversion_clear N1 as [|? ? N2 N3]. destruct (same_step mem sees o h k N2 R) as [X Y].
  cbn [host_run]. destruct (host_step mem sees o h) as [a h1], (host_step mem sees o k) as [a' k1]. cbn [fst snd] in *. specialize (IH h1 k1 N3 Y).
  destruct (host_run mem sees os h1), (host_run mem sees os k1). cbn [fst] in *. congruence.
Qed.
Lemma run_app mem sees os1 os2 h :
  host_run mem sees (os1 ++ os2) h =
  (fst (host_run mem sees os1 h) ++ fst (host_run mem sees os2 (snd (host_run mem sees os1 h))), snd (host_run mem sees os2 (snd (host_run mem sees os1 h)))).
Proof.
  revert h. induction os1 as [|o os1 IH]; intros h; cbn [app host_run fst snd]; [now destruct (host_run mem sees os2 h)|].
  destruct (host_step mem sees o h) as [a h1]. rewrite IH. destruct (host_run mem sees os1 h1) as [l h2]. reflexivity.
Qed.

(** ** Coins *)
Lemma coins_ext f g l : (forall p, In p l -> f p = g p) -> coins f l = coins g l.
Proof. induction l as [|p l IH]; intros H; [reflexivity|]. cbn [coins fold_right] in *. unfold coins in IH. rewrite (H p) by now left. rewrite IH; [reflexivity|]. intros q Hq. apply H. now right. Qed.
Lemma coins_change f g l p : NoDup l -> In p l -> (forall q, q <> p -> f q = g q) -> coins f l + g p = coins g l + f p.
Proof.
  intros ND Hp H. induction ND as [|q l Nq ND IH]; [destruct Hp|]. cbn [coins fold_right]. fold (coins f l) (coins g l).
  destruct (N.eq_dec q p) as [->|Hne].
  - rewrite (coins_ext f g l); [lia|]. intros x Hx. apply H. intros ->. auto.
  - destruct Hp as [->|Hp]; [congruence|]. specialize (IH Hp). rewrite (H q Hne). lia.
Qed.
Section Keyed.
Variable mem : N -> bytes.
Variable sees : table -> N -> N -> bool.
Hypothesis S1 : finds_itself sees.
Variable pts : list N.
Hypothesis U : forall p q, In p pts -> In q pts -> mem p = mem q -> p = q.
Definition owned (h : host) : Prop := keyed pts (h_accounts h) /\ (forall p, h_target h = Some p -> In p pts).
Lemma owned_step o h : owned h -> (forall p, In p (pointers o) -> In p pts) -> owned (snd (host_step mem sees o h)).
Proof.
  intros [K T] Hin. destruct o as [rs|x|x|a n|n|a|a|n|a n|m c| | | | | | | | |a|]; cbn [host_step change tell snd pointers] in *;
    try (split; assumption); try (assert (Ha : In a pts) by (apply Hin; now left)).
  - destruct (calldata_of rs); split; assumption.
  - split; cbn; auto. now apply insert_keyed.
  - split; cbn; auto. intros p [= <-]. exact Ha.
  - unfold host_transfer. destruct (balance mem sees h) as [n0|]; [|split; [exact K|exact T]]. cbn [obind]. destruct (ensure _); [|split; [exact K|exact T]]. cbn [obind].
    destruct (amount_sub n0 n); [|split; [exact K|exact T]]. cbn [obind]. destruct (amount_add true (balance_of mem sees h a) n); [|split; [exact K|exact T]]. cbn [obind].
    destruct (h_target h) as [s|] eqn:Et; [|split; [exact K|cbn; rewrite Et; exact T]]. cbn [obind change snd]. split; cbn; [|rewrite Et; exact T].
    apply insert_keyed; auto. apply insert_keyed; auto.
  - split; cbn; [exact K|discriminate].
Qed.
Lemma owned_run os : forall h, owned h -> (forall p, In p (flat_map pointers os) -> In p pts) -> owned (snd (host_run mem sees os h)).
Proof.
  induction os as [|o os IH]; intros h O Hin; [exact O|]. cbn [host_run flat_map] in *.
  pose proof (owned_step o h O (fun p Hp => Hin p (in_or_app _ _ _ (or_introl Hp)))) as O1. destruct (host_step mem sees o h) as [a h1]. cbn [snd] in O1.
  specialize (IH h1 O1 (fun p Hp => Hin p (in_or_app _ _ _ (or_intror Hp)))). destruct (host_run mem sees os h1). exact IH.
Qed.
Lemma transfer_coins h src dst n h' accounts : owned h -> h_target h = Some src -> In dst pts -> src <> dst ->
  host_transfer mem sees h dst n = Some h' -> NoDup accounts -> (forall p, In p accounts -> In p pts) -> In src accounts -> In dst accounts ->
  balance_of mem sees h' src + n = balance_of mem sees h src /\ balance_of mem sees h' dst = balance_of mem sees h dst + n
  /\ coins (balance_of mem sees h') accounts = coins (balance_of mem sees h) accounts.
Proof.
  intros [K T] Et Hd Hne E ND Hin Is Id. pose proof (T src Et) as Hs. unfold host_transfer, balance in E. rewrite Et in E. cbn [option_map obind] in E.
  unfold ensure, amount_sub, amount_add, u64_op, ensure in E. destruct (N.leb_spec n (balance_of mem sees h src)) as [L|L]; cbn [obind] in E; [|discriminate E].
  destruct (N.leb_spec (balance_of mem sees h dst + n) u64_max) as [L2|L2]; cbn [obind] in E; [|discriminate E]. injection E as <-.
  set (t1 := insert mem sees (h_accounts h) src (balance_of mem sees h src - n)). set (h' := with_accounts _ _).
  assert (K1 : keyed pts t1) by now apply insert_keyed.
  assert (B : forall p, In p pts -> balance_of mem sees h' p = if dst =? p then balance_of mem sees h dst + n else if src =? p then balance_of mem sees h src - n else balance_of mem sees h p).
  { intros p Hp. change (balance_of mem sees h' p) with (amount_at mem sees (insert mem sees t1 dst (balance_of mem sees h dst + n)) p).
    rewrite (amount_insert mem sees S1 pts U) by auto. unfold t1. rewrite (amount_insert mem sees S1 pts U) by auto. reflexivity. }
  assert (B1 : balance_of mem sees h' src = balance_of mem sees h src - n).
  { rewrite B by auto. rewrite N.eqb_refl. destruct (N.eqb_spec dst src); congruence. }
  assert (B2 : balance_of mem sees h' dst = balance_of mem sees h dst + n) by (rewrite B by auto; now rewrite N.eqb_refl).
  split; [lia|]. split; [exact B2|].
  pose (f := fun p => if dst =? p then balance_of mem sees h dst + n else if src =? p then balance_of mem sees h src - n else balance_of mem sees h p).
  pose (g := fun p => if src =? p then balance_of mem sees h src - n else balance_of mem sees h p).
  rewrite (coins_ext (balance_of mem sees h') f) by (intros p Hp; apply B; auto).
  assert (C1 : coins f accounts + g dst = coins g accounts + f dst).
  { apply coins_change; auto. intros q Hq. unfold f, g. destruct (N.eqb_spec dst q); congruence. }
  assert (C2 : coins g accounts + balance_of mem sees h src = coins (balance_of mem sees h) accounts + g src).
  { apply coins_change; auto. intros q Hq. unfold g. destruct (N.eqb_spec src q); congruence. }
  assert (F1 : f dst = balance_of mem sees h dst + n) by (unfold f; now rewrite N.eqb_refl).
  assert (G1 : g dst = balance_of mem sees h dst) by (unfold g; destruct (N.eqb_spec src dst); congruence).
  assert (G2 : g src = balance_of mem sees h src - n) by (unfold g; now rewrite N.eqb_refl).
  rewrite F1, G1 in C1. rewrite G2 in C2. lia.
Qed.
End Keyed.
