(** C24-C31 and C59-C66: transactions of the runtime. *)
From Coq Require Import String.
From Coq Require Import List NArith ZArith Bool Lia Permutation.
From Coq Require Import ZifyBool ZifyNat ZifyN.
From Verif Require Import Base CodecModel CodecSpec ReceiptModel LayoutModel LayoutSpec SectionModel SectionSpec.
From Verif Require Import StorageModel StorageSpec StorageProofs StorageProps Text.
From Verif Require Import GlobalModel GlobalSpec GlobalProofs RuntimeModel RuntimeSpec RuntimeProofs.
Import ListNotations.
Open Scope N_scope.

(* ------------------------------------------------------------------------------------ *)
(** * A concrete world for the examples *)

(** A hash with 32 bytes of output that separates all storage keys: the address, a tag for
    the kind of the entry and the segment number of a key; other inputs are cut or padded
    to 32 bytes. *)
Definition rx_pad (b : bytes) : bytes := firstn 32 (map (fun x => x mod 256) b ++ repeat 0 32).
Definition rx_key (rest : bytes) : bytes :=
  let suffix := skipn 40 rest in
  rx_pad (match unhex (firstn 40 rest) with Some a => a | None => [] end
          ++ [nth 1 suffix 0]
          ++ be_bytes 4 (digits_value (map (fun c => c - 48) (skipn 14 suffix)))).
Definition rx_hash (b : bytes) : bytes :=
  match b with
  | 97 :: _ => rx_key (skipn 9 b)
  | 116 :: _ => rx_key (skipn 10 b)
  | _ => rx_pad b
  end.
Definition rx_env : env := mkEnv rx_hash (fun c => c).

Lemma rx_pad_wf b : array_wf 32 (rx_pad b).
Proof.
  unfold rx_pad. split.
  - rewrite firstn_length, app_length, repeat_length. lia.
  - apply firstn_ok. apply Forall_app. split.
    + apply Forall_forall. intros x Hx. apply in_map_iff in Hx as (y & <- & _). apply N.mod_lt. discriminate.
    + apply Forall_forall. intros x Hx. apply repeat_spec in Hx. subst. reflexivity.
Qed.
Lemma rx_hash_wf : hash_wf rx_env.
Proof.
  intros b. cbn [env_hash rx_env]. unfold rx_hash, rx_key.
  repeat match goal with |- context [match ?x with _ => _ end] => destruct x end; apply rx_pad_wf.
Qed.
Lemma rx_iterates : iterates rx_env.
Proof. intros c. apply Permutation_refl. Qed.

Definition rx_tag (t : tkey) : N :=
  match t with TImm _ => 105 | TMut _ => 109 | TSeg _ _ => 118 | TCore _ => 99 | TNon _ => 110 end.
Definition rx_num (t : tkey) : N := match t with TSeg _ n => n | _ => 0 end.

Lemma rx_pad_exact a t n : array_wf 20 a -> t < 256 ->
  rx_pad (a ++ [t] ++ be_bytes 4 n) = a ++ [t] ++ be_bytes 4 n ++ repeat 0 7.
Proof.
  intros [HL HB] Ht. unfold rx_pad.
  assert (E : forall l, bytes_ok l -> map (fun x => x mod 256) l = l).
  { intros l H. induction H as [|x l Hx _ IH]; [reflexivity|]. cbn [map]. rewrite IH. f_equal. apply N.mod_small. exact Hx. }
  rewrite E.
  2:{ apply Forall_app. split; [exact HB|]. apply Forall_app. split; [constructor; [exact Ht|constructor]|apply be_bytes_ok]. }
  change (repeat 0 32) with (repeat 0 7 ++ repeat 0 25).
  assert (Hlen : length ((a ++ [t] ++ be_bytes 4 n) ++ repeat 0 7) = 32%nat).
  { rewrite !app_length, be_bytes_length, repeat_length, HL. reflexivity. }
  rewrite app_assoc, firstn_app, Hlen, Nat.sub_diag, firstn_all2 by lia. cbn [firstn]. rewrite app_nil_r.
  now rewrite <- !app_assoc.
Qed.

Lemma rx_hash_key t : tkey_wf t ->
  rx_hash (key_of t) = tkey_addr t ++ [rx_tag t] ++ be_bytes 4 (rx_num t) ++ repeat 0 7.
Proof.
  intros [[HL HB] HN]. rewrite key_of_shape.
  assert (E : rx_hash (key_prefix t ++ hex_upper (tkey_addr t) ++ key_suffix t)
              = rx_key (hex_upper (tkey_addr t) ++ key_suffix t)) by (destruct t; reflexivity).
  rewrite E. unfold rx_key.
  assert (H40 : length (hex_upper (tkey_addr t)) = 40%nat) by (rewrite hex_upper_length, HL; reflexivity).
  rewrite firstn_app, skipn_app, H40, Nat.sub_diag, firstn_all2, skipn_all2 by lia.
  change (firstn 0 (key_suffix t)) with (@nil N). rewrite app_nil_r.
  change ([] ++ skipn 0 (key_suffix t)) with (key_suffix t). rewrite unhex_hex_upper by exact HB.
  rewrite <- rx_pad_exact; [|now split|destruct t; reflexivity].
  f_equal. f_equal. f_equal; [destruct t; reflexivity|]. f_equal. 
  destruct t; try reflexivity. cbn [key_suffix rx_num].
  change (skipn 14 (txt ":var_segments:" ++ decimal n)) with (decimal n). apply decimal_value.
Qed.

Lemma rx_collision_free : collision_free rx_env.
Proof.
  assert (K : forall a, storage_key a -> exists t, tkey_wf t /\ a = key_of t).
  { intros a [x H|x H|x n H Hn|x H|x H];
      [exists (TImm x)|exists (TMut x)|exists (TSeg x n)|exists (TCore x)|exists (TNon x)]; repeat split; auto; apply H. }
  intros a b Ha Hb. destruct (K a Ha) as (t & Ht & ->), (K b Hb) as (u & Hu & ->).
  cbn [env_hash rx_env]. rewrite !rx_hash_key by auto. intros E.
  apply app_inj_l in E as [E1 E].
  2:{ destruct Ht as [[Ht _] _], Hu as [[Hu _] _]. congruence. }
  apply app_inj_l in E as [E2 E]; [|reflexivity].
  apply app_inj_l in E as [E3 _]; [|now rewrite !be_bytes_length].
  f_equal. destruct Ht as [_ Nt], Hu as [_ Nu].
  destruct t, u; try discriminate E2; cbn [tkey_addr rx_num] in *; subst; auto.
  apply (f_equal be_value) in E3. unfold u32_max in *.
  rewrite !be_value_be_bytes_small in E3 by (cbn; lia). now subst.
Qed.

(** Two templates.  The code is an opaque byte string; the engine below knows what it does. *)
Definition rx_code (n : N) : bytes := [0; 97; 115; 109; n] ++ repeat 1 19.
Definition rx_taddr (n : N) : bytes := firstn 20 (rx_code n).
Definition rx_sizes : list N := [8; 4; 20].
Definition rx_layout : fixed_layout :=
  match from_byte_sizes 0 rx_sizes with Some l => l | None => default_layout end.
Definition rx_sections (n : N) : sections :=
  [SCode (mkCode 0 (rx_code n) 0 Fixed); SData [rx_layout]; SCtors [txt "init"]].
Definition rx_a : bytes := rx_taddr 1.
Definition rx_b : bytes := repeat 8 20.

(** Every function of the contract, by its name.  Its memory starts with the two addresses. *)
Definition rx_body (name : bytes) (mem : bytes) : wasm (list N * bytes) :=
  let done := fun (_ : N) m => WReturn m ([], []) in
  if bytes_eqb name (txt "svm_alloc") then WReturn mem ([40], [])
  else if bytes_eqb name (txt "init") then WHost mem (HSet64 0 7) done
  else if bytes_eqb name (txt "set") then WHost mem (HSet64 0 42) done
  else if bytes_eqb name (txt "bad") then WHost mem (HSet64 0 99) (fun _ _ => WTrap (txt "oops"))
  else if bytes_eqb name (txt "pay") then WHost mem (HTransfer 0 20 5) done
  else if bytes_eqb name (txt "take") then WHost mem (HTransfer 20 0 5) done
  else if bytes_eqb name (txt "self") then WHost mem (HTransfer 0 0 5) done
  else WReturn mem ([], []).
Definition rx_engine : engine :=
  mkEngine bytes (fun _ => None) (fun _ => WReturn (rx_a ++ rx_b ++ repeat 0 60) []) (fun _ => true)
    (fun _ name => Some (if bytes_eqb name svm_alloc then SigAlloc else SigUnit))
    (fun _ name _ mem => rx_body name mem) (fun _ => Some (fun _ => Some 0)) (fun _ => Some (fun _ => Some 10)).

Lemma rx_engine_wf : engine_wf rx_engine.
Proof.
  split.
  - intros code. constructor. apply bytes_okb_ok. reflexivity.
  - intros i name args mem Hm. cbn. unfold rx_body.
    repeat match goal with |- context [bytes_eqb name ?x] => destruct (bytes_eqb name x) end;
      constructor; auto; intros; constructor; auto.
Qed.

Definition rx_envelope (limit : gas) : envelope := mkEnvelope rx_b 0 0 limit 1.
Definition rx_deploy (n : N) : bytes :=
  match enc_sections (rx_sections n) with Some m => m | None => [] end.
Definition rx_spawn (n : N) (ctor : bytes) : bytes :=
  match enc_spawn (mkSpawn 0 (rx_taddr n) (txt "acc") ctor [1; 2]) with Some m => m | None => [] end.
Definition rx_call (f : bytes) : bytes :=
  match enc_transaction (mkTransaction 0 rx_a f [] [1; 2; 3]) with Some m => m | None => [] end.

Definition rx_start : gstate :=
  match gs_new rx_env empty_db [] with Some g => g | None => mkGstate fresh None end.
Definition rx_run (ops : list rop) (gc : gstate * price_cache) : gstate * price_cache :=
  fold_left (fun s o => run_rop rx_env rx_engine o s) ops gc.

(** Deployed and spawned, and an account [rx_b] owning 50 coins. *)
Definition rx_ops : list rop :=
  [TDeploy (rx_envelope None) (rx_deploy 1); TSpawn (rx_envelope None) (rx_spawn 1 (txt "init"));
   TCreate rx_b (txt "bob") (rx_taddr 1) 50 0; TIncrease rx_a 100].
Definition rx_state : gstate := fst (rx_run rx_ops (rx_start, [])).

Lemma rx_run_reachable ops g c : rt_reachable rx_env rx_engine g c -> Forall rop_wf ops ->
  rt_reachable rx_env rx_engine (fst (rx_run ops (g, c))) (snd (rx_run ops (g, c))).
Proof.
  intros H HF. revert g c H. induction HF as [|o ops Ho _ IH]; intros g c H; [exact H|].
  unfold rx_run. cbn [fold_left]. fold (rx_run ops). destruct (run_rop rx_env rx_engine o (g, c)) as [g1 c1] eqn:E.
  apply IH. now apply (rr_op _ _ o g c).
Qed.
Lemma rx_start_reachable : rt_reachable rx_env rx_engine rx_start [].
Proof. apply (rr_new _ _ []); [constructor|]. vm_compute. reflexivity. Qed.
Lemma rx_b_wf : array_wf 20 rx_b.
Proof. split; [reflexivity|apply bytes_okb_ok; reflexivity]. Qed.
Lemma rx_a_wf : array_wf 20 rx_a.
Proof. split; [reflexivity|apply bytes_okb_ok; reflexivity]. Qed.
Lemma rx_ops_wf : Forall rop_wf rx_ops.
Proof.
  unfold rx_ops. repeat match goal with |- Forall _ (_ :: _) => constructor | |- Forall _ [] => constructor end;
    cbn [rop_wf]; try (apply bytes_okb_ok; vm_compute; reflexivity).
  - split; [apply rx_b_wf|]. split; [split; [split; [discriminate|apply bytes_okb_ok; reflexivity]|reflexivity]|].
    split; [split; [reflexivity|apply bytes_okb_ok; reflexivity]|]. split; reflexivity.
  - apply rx_a_wf.
Qed.
Lemma rx_reachable : rt_reachable rx_env rx_engine rx_state (snd (rx_run rx_ops (rx_start, []))).
Proof. apply rx_run_reachable; [apply rx_start_reachable|apply rx_ops_wf]. Qed.
Lemma rx_live : live rx_env rx_state.
Proof.
  eapply rt_live; [apply rx_iterates|apply rx_collision_free|apply rx_hash_wf|apply rx_engine_wf|apply rx_reachable].
Qed.

Example rx_world :
  fst (account_balance rx_env rx_a rx_state) = Ok 100 /\ fst (account_balance rx_env rx_b rx_state) = Ok 50
  /\ fst (template_sections rx_env (rx_taddr 1) rx_state) = Ok (rx_sections 1)
  /\ fst (get_var_i64 rx_env (mkAccount rx_a (rx_taddr 1) rx_layout) 0 rx_state) = Ok 7
  /\ exists fp, fst (gs_current_layer rx_state) = Ok (0, fp).
Proof. repeat split; try (vm_compute; reflexivity). eexists. vm_compute. reflexivity. Qed.

(* ------------------------------------------------------------------------------------ *)
(** * C24 Transfers conserve coins *)

(** A successful transfer between distinct accounts moves exactly the amount, without
    overdraft or overflow, and changes nothing else. *)
Theorem C24_transfer_moves :
  forall e en g c src dst n g',
  iterates e -> collision_free e -> hash_wf e -> engine_wf en -> rt_reachable e en g c ->
  array_wf 20 src -> array_wf 20 dst -> src <> dst ->
  transfer e src dst n g = (Ok tt, g') ->
  exists bs bd,
    fst (account_balance e src g) = Ok bs /\ fst (account_balance e dst g) = Ok bd
    /\ n <= bs /\ bd + n <= u64_max
    /\ fst (account_balance e src g') = Ok (bs - n) /\ fst (account_balance e dst g') = Ok (bd + n)
    /\ unchanged_except e (pair_of src dst) nobody g g'.
Proof.
  intros e en g c src dst n g' HI HC HH HE HR Hs Hd Hne E.
  pose proof (rt_live e en g c HI HC HH HE HR) as HL.
  apply transfer_cases in E; auto. destruct E as (HL' & M & bs & bd & B1 & B2 & L1 & L2 & B3 & B4).
  exists bs, bd. do 6 (split; [auto|]). apply moves_unchanged; auto using live_typed.
Qed.
Print Assumptions C24_transfer_moves.

(** It succeeds whenever both accounts exist, the amount is available and the receiver's
    balance can hold it. *)
Theorem C24_transfer_succeeds :
  forall e en g c src dst n bs bd,
  iterates e -> collision_free e -> hash_wf e -> engine_wf en -> rt_reachable e en g c ->
  array_wf 20 src -> array_wf 20 dst -> exists_account e g src -> exists_account e g dst ->
  fst (account_balance e src g) = Ok bs -> fst (account_balance e dst g) = Ok bd ->
  n <= bs -> bd + n <= u64_max ->
  exists g', transfer e src dst n g = (Ok tt, g').
Proof.
  intros e en g c src dst n bs bd HI HC HH HE HR Hs Hd Es Ed B1 B2 L1 L2.
  pose proof (rt_live e en g c HI HC HH HE HR) as HL.
  destruct (transfer e src dst n g) as [r g'] eqn:E. pose proof E as E0.
  apply transfer_cases in E; auto. destruct E as (_ & _ & K). destruct r as [[]|?|]; [eauto|contradiction|].
  exfalso. destruct K as [[_ K]|(b1 & b2 & K1 & K2 & K3 & K4 & _)].
  - destruct K as [K|[K|K]]; auto. specialize (K _ _ B1 B2). lia.
  - rewrite B2 in K2. injection K2 as <-. lia.
Qed.
Print Assumptions C24_transfer_succeeds.

(** A transfer that exceeds the sender's balance is refused and changes nothing. *)
Theorem C24_overdraft_refused :
  forall e en g c src dst n bs,
  iterates e -> collision_free e -> hash_wf e -> engine_wf en -> rt_reachable e en g c ->
  array_wf 20 src -> array_wf 20 dst ->
  fst (account_balance e src g) = Ok bs -> bs < n ->
  transfer e src dst n g = (Panic, g).
Proof.
  intros e en g c src dst n bs HI HC HH HE HR Hs Hd B1 L.
  pose proof (rt_live e en g c HI HC HH HE HR) as HL.
  destruct (transfer e src dst n g) as [r g'] eqn:E.
  apply transfer_cases in E; auto. destruct E as (_ & _ & K). destruct r as [[]|?|].
  - destruct K as (b1 & b2 & K1 & K2 & K3 & _). rewrite B1 in K1. injection K1 as <-. lia.
  - contradiction.
  - destruct K as [[-> _]|(b1 & b2 & K1 & K2 & K3 & _)]; [reflexivity|]. rewrite B1 in K1. injection K1 as <-. lia.
Qed.
Print Assumptions C24_overdraft_refused.

(** Any sequence of requested transfers, successful or not, between distinct accounts
    leaves the sum of all balances unchanged, if that sum fits in 64 bits. *)
Theorem C24_sum_invariant :
  forall e en g c ts accounts,
  iterates e -> collision_free e -> hash_wf e -> engine_wf en -> rt_reachable e en g c ->
  Forall (fun '(src, dst, _) => array_wf 20 src /\ array_wf 20 dst /\ src <> dst) ts ->
  all_accounts e g accounts -> supply e g accounts <= u64_max ->
  all_accounts e (run_transfers e ts g) accounts
  /\ supply e (run_transfers e ts g) accounts = supply e g accounts.
Proof.
  intros e en g c ts l HI HC HH HE HR HF HA HS. pose proof (rt_live e en g c HI HC HH HE HR) as HL.
  now apply transfers_supply.
Qed.
Print Assumptions C24_sum_invariant.

(** So does any call, whatever the contract does, as long as it asks for no transfer from
    an account to itself. *)
Theorem C24_call_conserves :
  forall e en g c m accounts,
  iterates e -> collision_free e -> hash_wf e -> engine_wf en -> contracts_no_self en ->
  rt_reachable e en g c -> bytes_ok m ->
  all_accounts e g accounts -> supply e g accounts <= u64_max ->
  all_accounts e (snd (rt_call e en m g)) accounts
  /\ supply e (snd (rt_call e en m g)) accounts = supply e g accounts.
Proof.
  intros e en g c m l HI HC HH HE HN HR Hm HA HS. pose proof (rt_live e en g c HI HC HH HE HR) as HL.
  now apply call_supply.
Qed.
Print Assumptions C24_call_conserves.

(** Both kinds of transfer mint coins when sender and receiver are the same account. *)
Theorem C24_self_transfer_refuted :
  ~ (forall e en g c src dst n g' accounts,
       iterates e -> collision_free e -> hash_wf e -> engine_wf en -> rt_reachable e en g c ->
       array_wf 20 src -> array_wf 20 dst -> In src accounts -> In dst accounts -> NoDup accounts ->
       transfer e src dst n g = (Ok tt, g') -> supply e g' accounts = supply e g accounts).
Proof.
  intros H. specialize (H rx_env rx_engine rx_state _ rx_a rx_a 5 (snd (transfer rx_env rx_a rx_a 5 rx_state)) [rx_a]
    rx_iterates rx_collision_free rx_hash_wf rx_engine_wf rx_reachable rx_a_wf rx_a_wf (or_introl eq_refl) (or_introl eq_refl)).
  assert (D : NoDup [rx_a]) by (constructor; [intros []|constructor]). specialize (H D). clear D.
  assert (E : transfer rx_env rx_a rx_a 5 rx_state = (Ok tt, snd (transfer rx_env rx_a rx_a 5 rx_state))) by (vm_compute; reflexivity).
  specialize (H E). vm_compute in H. discriminate H.
Qed.
Print Assumptions C24_self_transfer_refuted.

(** A transfer that would overflow the receiver destroys coins: the sender is debited
    before the check fails. *)
Definition rx_rich : gstate := fst (rx_run (rx_ops ++ [TIncrease rx_b (u64_max - 50)]) (rx_start, [])).
Lemma rx_rich_reachable : rt_reachable rx_env rx_engine rx_rich (snd (rx_run (rx_ops ++ [TIncrease rx_b (u64_max - 50)]) (rx_start, []))).
Proof.
  apply rx_run_reachable; [apply rx_start_reachable|]. apply Forall_app. split; [apply rx_ops_wf|].
  constructor; [apply rx_b_wf|constructor].
Qed.
Theorem C24_overflow_refuted :
  ~ (forall e en g c src dst n g' accounts,
       iterates e -> collision_free e -> hash_wf e -> engine_wf en -> rt_reachable e en g c ->
       array_wf 20 src -> array_wf 20 dst -> src <> dst -> In src accounts -> In dst accounts -> NoDup accounts ->
       snd (transfer e src dst n g) = g' -> supply e g' accounts = supply e g accounts).
Proof.
  intros H. specialize (H rx_env rx_engine rx_rich _ rx_a rx_b 5 (snd (transfer rx_env rx_a rx_b 5 rx_rich)) [rx_a; rx_b]
    rx_iterates rx_collision_free rx_hash_wf rx_engine_wf rx_rich_reachable rx_a_wf rx_b_wf).
  assert (D : NoDup [rx_a; rx_b]).
  { constructor; [intros [X|[]]; discriminate X|]. constructor; [intros []|constructor]. }
  specialize (H ltac:(discriminate) (or_introl eq_refl) (or_intror (or_introl eq_refl)) D eq_refl).
  vm_compute in H. discriminate H.
Qed.
Print Assumptions C24_overflow_refuted.

Example C24_satisfiable :
  rx_a <> rx_b /\ exists g', transfer rx_env rx_a rx_b 30 rx_state = (Ok tt, g')
  /\ fst (account_balance rx_env rx_a g') = Ok 70 /\ fst (account_balance rx_env rx_b g') = Ok 80.
Proof. split; [discriminate|]. eexists. split; [vm_compute; reflexivity|]. split; vm_compute; reflexivity. Qed.
Example C24_refusal_satisfiable :
  exists_account rx_env rx_state rx_a /\ fst (account_balance rx_env rx_a rx_state) = Ok 100 /\ 100 < 101.
Proof. split; [|split; [vm_compute; reflexivity|lia]]. eexists. vm_compute. reflexivity. Qed.

(* ------------------------------------------------------------------------------------ *)
(** * C25 Failed transactions leave no trace *)

(** A deploy that fails leaves the state as it was. *)
Theorem C25_failed_deploy :
  forall e en g c ev m r g',
  iterates e -> collision_free e -> hash_wf e -> engine_wf en -> rt_reachable e en g c -> bytes_ok m ->
  deploy e ev m g = (r, g') -> (forall rc, r = Some rc -> dr_success rc = false) -> g' = g.
Proof.
  intros e en g c ev m r g' HI HC HH HE HR Hm E Hf. pose proof (rt_live e en g c HI HC HH HE HR) as HL.
  apply deploy_cases in E; auto. destruct E as [_ [[-> ->]|[(_ & -> & ->)|(l & cs & _ & _ & _ & -> & _)]]]; auto.
  specialize (Hf _ eq_refl). discriminate.
Qed.
Print Assumptions C25_failed_deploy.

(** What a call that reports failure cannot touch: everything committed before, hence
    every historical read and the current layer; and every other account's variables,
    every account's name, template and counter, and every template.  Missing: its
    uncommitted writes to its own variables and to balances stay. *)
Theorem C25_failed_call_partial :
  forall e en g c m tx rc g',
  iterates e -> collision_free e -> hash_wf e -> engine_wf en -> rt_reachable e en g c -> bytes_ok m ->
  decoded dec_transaction m = Some tx ->
  rt_call e en m g = (Some rc, g') -> cr_success rc = false ->
  (forall k l, get e (gs_storage g') k (Some l) = get e (gs_storage g) k (Some l))
  /\ fst (gs_current_layer g') = fst (gs_current_layer g)
  /\ unchanged_except e everyone (fun x => x = tx_target tx) g g'.
Proof.
  intros e en g c m tx rc g' HI HC HH HE HR Hm Ed E Hf. pose proof (rt_live e en g c HI HC HH HE HR) as HL.
  eapply call_cases in E; eauto. destruct E as (HL' & U & K). rewrite Hf in K. destruct K as [K1 K2].
  split; auto. split; auto. unfold gs_current_layer, gbind. rewrite K2.
  destruct (last_layer (gs_storage g)) as [[i f]|?|]; cbn [lift]; auto. now destruct (layer_of i).
Qed.
Print Assumptions C25_failed_call_partial.

(** A contract that writes 99 to a variable and then traps: the receipt reports failure,
    the value 99 is what the account holds afterwards, and the next successful call commits it. *)
Definition rx_failed : gstate := snd (rt_call rx_env rx_engine (rx_call (txt "bad")) rx_state).
Definition rx_later : gstate := snd (rt_call rx_env rx_engine (rx_call (txt "other")) rx_failed).
Definition rx_acc : account := mkAccount rx_a (rx_taddr 1) rx_layout.
Theorem C25_failed_call_refuted :
  ~ (forall e en g c m rc g' a id,
       iterates e -> collision_free e -> hash_wf e -> engine_wf en -> rt_reachable e en g c -> bytes_ok m ->
       array_wf 20 (ac_addr a) ->
       rt_call e en m g = (Some rc, g') -> cr_success rc = false ->
       fst (get_var_i64 e a id g') = fst (get_var_i64 e a id g)).
Proof.
  intros H.
  destruct (rt_call rx_env rx_engine (rx_call (txt "bad")) rx_state) as [[rc|] g'] eqn:E; [|vm_compute in E; discriminate E].
  specialize (H rx_env rx_engine rx_state _ (rx_call (txt "bad")) rc g' rx_acc 0
    rx_iterates rx_collision_free rx_hash_wf rx_engine_wf rx_reachable).
  assert (Hok : bytes_ok (rx_call (txt "bad"))) by (apply bytes_okb_ok; vm_compute; reflexivity).
  specialize (H Hok rx_a_wf E).
  vm_compute in E. injection E as <- <-. specialize (H eq_refl). vm_compute in H. discriminate H.
Qed.
Print Assumptions C25_failed_call_refuted.
Example C25_failed_write_is_committed :
  option_map cr_success (fst (rt_call rx_env rx_engine (rx_call (txt "bad")) rx_state)) = Some false
  /\ option_map cr_success (fst (rt_call rx_env rx_engine (rx_call (txt "other")) rx_failed)) = Some true
  /\ has_uncommitted_changes (gs_storage rx_later) = false
  /\ fst (get_var_i64 rx_env rx_acc 0 rx_state) = Ok 7 /\ fst (get_var_i64 rx_env rx_acc 0 rx_later) = Ok 99.
Proof. repeat split; vm_compute; reflexivity. Qed.

(** A spawn whose constructor fails leaves the new account behind. *)
Definition rx_badctor : sections :=
  [SCode (mkCode 0 (rx_code 2) 0 Fixed); SData [rx_layout]; SCtors [txt "bad"]].
Definition rx_deploy_badctor : bytes := match enc_sections rx_badctor with Some m => m | None => [] end.
Definition rx_deployed2 : gstate * price_cache := rx_run [TDeploy (rx_envelope None) rx_deploy_badctor] (rx_start, []).
Example C25_failed_spawn_leaves_account :
  let '(r, _, g') := spawn rx_env rx_engine (rx_envelope None) (rx_spawn 2 (txt "bad")) [] (fst rx_deployed2) in
  option_map sr_success r = Some false
  /\ fst (account_name rx_env (rx_taddr 2) (fst rx_deployed2)) = Err GNotFound
  /\ fst (account_name rx_env (rx_taddr 2) g') = Ok (txt "acc").
Proof. vm_compute. repeat split; reflexivity. Qed.

(* ------------------------------------------------------------------------------------ *)
(** * C26 Deployed templates are retrievable *)

Theorem C26_deploy :
  forall e en g c ev m rc g',
  iterates e -> collision_free e -> hash_wf e -> engine_wf en -> rt_reachable e en g c -> bytes_ok m ->
  deploy e ev m g = (Some rc, g') -> dr_success rc = true ->
  exists sections code addr,
    decoded (dec_sections None) m = Some sections /\ code_of sections = Some code
    /\ addr = firstn 20 (env_hash e (cs_code code)) /\ dr_addr rc = Some addr
    /\ fst (template_sections e addr g') = Ok sections
    /\ (forall t, array_wf 20 t -> t <> addr -> fst (template_sections e t g') = fst (template_sections e t g))
    /\ (forall x, array_wf 20 x -> fields_of e x g' = fields_of e x g)
    /\ (forall a id, array_wf 20 (ac_addr a) -> fst (get_var_vec e a id g') = fst (get_var_vec e a id g)).
Proof.
  intros e en g c ev m rc g' HI HC HH HE HR Hm E Hok. pose proof (rt_live e en g c HI HC HH HE HR) as HL.
  apply deploy_cases in E; auto. destruct E as [HL' [[H _]|[(_ & H & _)|(l & cs & D1 & D2 & _ & H & _ & T & O)]]].
  - discriminate.
  - injection H as ->. discriminate.
  - injection H as ->. exists l, cs, (template_addr e (cs_code cs)). rewrite T. repeat (split; auto).
    + intros t Ht Hne. eapply only_sections; [exact O|exact Ht| |]; intros [Q|Q]; congruence.
    + intros x Hx. eapply only_fields; [exact O|exact Hx| |]; intros [Q|Q]; discriminate.
    + intros a id Ha. eapply only_var_vec; [exact O| | |exact Ha|]; try (now apply live_typed). intros k [Q|Q]; discriminate.
Qed.
Print Assumptions C26_deploy.
Example C26_satisfiable :
  let (r, g') := deploy rx_env (rx_envelope None) (rx_deploy 3) rx_state in
  option_map dr_success r = Some true /\ decoded (dec_sections None) (rx_deploy 3) = Some (rx_sections 3)
  /\ fst (template_sections rx_env (rx_taddr 3) g') = Ok (rx_sections 3)
  /\ fst (template_sections rx_env (rx_taddr 1) g') = Ok (rx_sections 1).
Proof. vm_compute. repeat split; reflexivity. Qed.

(** A template already deployed can be replaced: the address depends on the code alone, so
    deploying the same code with other constructors or another data layout rewrites the
    template of accounts that already exist. *)
Definition rx_other_sections : sections :=
  [SCode (mkCode 0 (rx_code 1) 0 Fixed); SData [rx_layout]; SCtors [txt "set"]].
Definition rx_redeploy : bytes := match enc_sections rx_other_sections with Some m => m | None => [] end.
Theorem C26_templates_permanent_refuted :
  ~ (forall e en g c ev m g' t l,
       iterates e -> collision_free e -> hash_wf e -> engine_wf en -> rt_reachable e en g c -> bytes_ok m ->
       array_wf 20 t -> fst (template_sections e t g) = Ok l -> snd (deploy e ev m g) = g' ->
       fst (template_sections e t g') = Ok l).
Proof.
  intros H. specialize (H rx_env rx_engine rx_state _ (rx_envelope None) rx_redeploy (snd (deploy rx_env (rx_envelope None) rx_redeploy rx_state)) (rx_taddr 1) (rx_sections 1)
    rx_iterates rx_collision_free rx_hash_wf rx_engine_wf rx_reachable).
  assert (Hok : bytes_ok rx_redeploy) by (apply bytes_okb_ok; vm_compute; reflexivity).
  specialize (H Hok rx_a_wf). assert (E : fst (template_sections rx_env (rx_taddr 1) rx_state) = Ok (rx_sections 1)) by (vm_compute; reflexivity).
  specialize (H E eq_refl). vm_compute in H. discriminate H.
Qed.
Print Assumptions C26_templates_permanent_refuted.

(* ------------------------------------------------------------------------------------ *)
(** * C27 Spawned accounts get their own address *)

(** A successful spawn creates the account the receipt names, with the given name and
    template, and changes no other account except balances of accounts the receipt lists. 
    Missing: the address is that of the template, so spawning a template again hits the
    same account. *)
Theorem C27_spawn_partial :
  forall e en g c ev m rc c' g',
  iterates e -> collision_free e -> hash_wf e -> engine_wf en -> rt_reachable e en g c -> bytes_ok m ->
  spawn e en ev m c g = (Some rc, c', g') -> sr_success rc = true ->
  exists sp new, decoded dec_spawn m = Some sp /\ new = firstn 20 (env_hash e (sp_template sp))
     /\ sr_account rc = Some new /\ In new (sr_touched rc) /\ In (env_principal ev) (sr_touched rc)
     /\ committed_with g' (sr_init_state rc)
     /\ fst (account_name e new g') = Ok (sp_name sp) /\ fst (account_template e new g') = Ok (sp_template sp)
     /\ fst (account_counter e new g') = Ok 0
     /\ (forall x, array_wf 20 x -> x <> new ->
           fst (account_name e x g') = fst (account_name e x g)
           /\ fst (account_template e x g') = fst (account_template e x g)
           /\ fst (account_counter e x g') = fst (account_counter e x g)
           /\ (~ In x (sr_touched rc) -> fields_of e x g' = fields_of e x g))
     /\ (forall a id, array_wf 20 (ac_addr a) -> ac_addr a <> new ->
           fst (get_var_vec e a id g') = fst (get_var_vec e a id g))
     /\ (forall t, array_wf 20 t -> fst (template_sections e t g') = fst (template_sections e t g)).
Proof.
  intros e en g c ev m rc c' g' HI HC HH HE HR Hm E Hok. pose proof (rt_live e en g c HI HC HH HE HR) as HL.
  destruct (spawn_effect e en ev m c g rc c' g' HI HC HH HE HL Hm E Hok) as (sp & Ed & K).
  exists sp, (account_addr e (sp_template sp)). split; [exact Ed|]. split; [reflexivity|exact K].
Qed.
Print Assumptions C27_spawn_partial.
Example C27_satisfiable :
  let '(r, _, g') := spawn rx_env rx_engine (rx_envelope (Some 100000)) (rx_spawn 1 (txt "init")) []
                       (fst (rx_run [TDeploy (rx_envelope None) (rx_deploy 1)] (rx_start, []))) in
  option_map sr_success r = Some true /\ fst (account_name rx_env rx_a g') = Ok (txt "acc").
Proof. vm_compute. split; reflexivity. Qed.

(** Two spawns of one template under different names: the second takes over the account of
    the first and resets its balance, destroying its coins. *)
Definition rx_spawn_named (name : bytes) : bytes :=
  match enc_spawn (mkSpawn 0 (rx_taddr 1) name (txt "init") [1; 2]) with Some m => m | None => [] end.
Theorem C27_own_address_refuted :
  ~ (forall e en g c ev m rc c' g' new,
       iterates e -> collision_free e -> hash_wf e -> engine_wf en -> rt_reachable e en g c -> bytes_ok m ->
       spawn e en ev m c g = (Some rc, c', g') -> sr_success rc = true -> sr_account rc = Some new ->
       ~ exists_account e g new).
Proof.
  intros H.
  destruct (spawn rx_env rx_engine (rx_envelope None) (rx_spawn_named (txt "eve")) [] rx_state) as [[[rc|] c'] g'] eqn:E;
    [|vm_compute in E; discriminate E].
  assert (R : rt_reachable rx_env rx_engine rx_state (snd (rx_run rx_ops (rx_start, [])))) by apply rx_reachable.
  destruct (spawn rx_env rx_engine (rx_envelope None) (rx_spawn_named (txt "eve")) (snd (rx_run rx_ops (rx_start, []))) rx_state)
    as [[[rc2|] c2] g2] eqn:E2; [|vm_compute in E2; discriminate E2].
  specialize (H rx_env rx_engine rx_state _ (rx_envelope None) (rx_spawn_named (txt "eve")) rc2 c2 g2 rx_a
    rx_iterates rx_collision_free rx_hash_wf rx_engine_wf R).
  assert (Hok : bytes_ok (rx_spawn_named (txt "eve"))) by (apply bytes_okb_ok; vm_compute; reflexivity).
  specialize (H Hok E2).
  vm_compute in E2. injection E2 as <- _ _. apply H; [reflexivity|reflexivity|].
  eexists. vm_compute. reflexivity.
Qed.
Print Assumptions C27_own_address_refuted.
Example C27_respawn_destroys_coins :
  let '(r, _, g') := spawn rx_env rx_engine (rx_envelope None) (rx_spawn_named (txt "eve")) [] rx_state in
  option_map sr_success r = Some true
  /\ fst (account_balance rx_env rx_a rx_state) = Ok 100 /\ fst (account_balance rx_env rx_a g') = Ok 0
  /\ fst (account_name rx_env rx_a rx_state) = Ok (txt "acc") /\ fst (account_name rx_env rx_a g') = Ok (txt "eve").
Proof. vm_compute. repeat split; reflexivity. Qed.

(* ------------------------------------------------------------------------------------ *)
(** * C28 verify cannot modify storage *)

Theorem C28_verify_reads_only :
  forall e en m g, snd (verify e en m g) = g.
Proof. intros. apply verify_pure. Qed.
Print Assumptions C28_verify_reads_only.
(** A contract trying to write during verification. *)
Definition rx_writer : engine :=
  mkEngine bytes (fun _ => None) (fun _ => WReturn (repeat 0 60) []) (fun _ => true)
    (fun _ name => Some (if bytes_eqb name svm_alloc then SigAlloc else SigUnit))
    (fun _ name _ mem => if bytes_eqb name svm_alloc then WReturn mem ([40], [])
                         else WHost mem (HSet64 0 1) (fun _ m => WReturn m ([], [])))
    (fun _ => None) (fun _ => None).
Example C28_satisfiable :
  fst (verify rx_env rx_writer (rx_call (txt "set")) rx_state) = None
  /\ snd (rt_call rx_env rx_writer (rx_call (txt "set")) rx_state) <> rx_state.
Proof. split; [vm_compute; reflexivity|]. intros H. apply (f_equal (fun g => fst (get_var_i64 rx_env rx_acc 0 g))) in H. vm_compute in H. discriminate H. Qed.

(* ------------------------------------------------------------------------------------ *)
(** * C29 Constructors only through spawn *)

(** Calling a constructor is refused without running anything. *)
Theorem C29_call_of_constructor_refused :
  forall e en m g tx template sections,
  decoded dec_transaction m = Some tx -> exists_account e g (tx_target tx) ->
  fst (account_template e (tx_target tx) g) = Ok template ->
  fst (template_sections e template g) = Ok sections ->
  (exists names, ctors_of sections = Some names /\ In (tx_func_name tx) names) ->
  exists rc, rt_call e en m g = (Some rc, g)
    /\ cr_success rc = false
    /\ cr_error rc = Some (FuncNotAllowed (tx_target tx) template (tx_func_name tx)
                            (txt "expected function not to be a constructor")).
Proof.
  intros e en m g tx t l Ed Ea Et El (names & Hc & Hin).
  erewrite call_ctor_refused; eauto.
  - eexists. split; [reflexivity|]. split; reflexivity.
  - unfold is_ctor. rewrite Hc. cbn [obind]. f_equal. apply existsb_exists. exists (tx_func_name tx). split; auto.
    now apply ReceiptProofs.bytes_eqb_spec.
Qed.
Print Assumptions C29_call_of_constructor_refused.

(** Spawning with a function that is no constructor is refused without running anything. *)
Theorem C29_spawn_of_other_refused :
  forall e en ev m c g sp sections names,
  decoded dec_spawn m = Some sp -> fst (template_sections e (sp_template sp) g) = Ok sections ->
  ctors_of sections = Some names -> ~ In (sp_ctor sp) names ->
  exists rc, spawn e en ev m c g = (Some rc, c, g) /\ sr_success rc = false
    /\ sr_error rc = Some (FuncNotCtor (sp_template sp) (sp_ctor sp)).
Proof.
  intros e en ev m c g sp l names Ed El Hc Hn.
  assert (H : is_ctor l (sp_ctor sp) = Some false).
  { unfold is_ctor. rewrite Hc. cbn [obind]. f_equal. apply not_true_is_false. intros H. apply Hn.
    apply existsb_exists in H as (y & Hy & E). apply ReceiptProofs.bytes_eqb_spec in E. now subst. }
  rewrite (spawn_not_ctor _ _ _ _ _ _ _ _ Ed El H). eexists. split; [reflexivity|]. split; reflexivity.
Qed.
Print Assumptions C29_spawn_of_other_refused.

(** So a successful spawn ran one of the template's constructors. *)
Theorem C29_spawn_runs_constructor :
  forall e en ev m c g rc c' g',
  spawn e en ev m c g = (Some rc, c', g') -> sr_success rc = true ->
  exists sp sections names, decoded dec_spawn m = Some sp
    /\ fst (template_sections e (sp_template sp) g) = Ok sections
    /\ ctors_of sections = Some names /\ In (sp_ctor sp) names.
Proof.
  intros e en ev m c g rc c' g' E Hok. destruct (spawn_success_ctor _ _ _ _ _ _ _ _ _ E Hok) as (sp & l & Ed & El & Hc & _).
  unfold is_ctor in Hc. destruct (ctors_of l) as [names|] eqn:En; [|discriminate]. cbn [obind] in Hc. injection Hc as Hc.
  exists sp, l, names. repeat (split; auto). apply existsb_exists in Hc as (y & Hy & E2). apply ReceiptProofs.bytes_eqb_spec in E2. now subst.
Qed.
Print Assumptions C29_spawn_runs_constructor.
Example C29_satisfiable :
  option_map cr_success (fst (rt_call rx_env rx_engine (rx_call (txt "init")) rx_state)) = Some false
  /\ option_map cr_success (fst (rt_call rx_env rx_engine (rx_call (txt "set")) rx_state)) = Some true
  /\ option_map sr_success (fst (fst (spawn rx_env rx_engine (rx_envelope None) (rx_spawn 1 (txt "set")) [] rx_state))) = Some false
  /\ option_map sr_success (fst (fst (spawn rx_env rx_engine (rx_envelope None) (rx_spawn 1 (txt "init")) [] rx_state))) = Some true.
Proof. repeat split; vm_compute; reflexivity. Qed.

(* ------------------------------------------------------------------------------------ *)
(** * C30 Deploy charges exactly its price *)

(** The receipt reports success exactly when the limit covers 1000 per byte of message,
    and then reports exactly that as gas used; otherwise nothing changes. *)
Theorem C30_deploy_price :
  forall e ev m g rc g',
  deploy e ev m g = (Some rc, g') ->
  (dr_success rc = true <-> match env_gas_limit ev with Some n => 1000 * nlen m <= n | None => True end)
  /\ (dr_success rc = true -> dr_gas_used rc = Some (1000 * nlen m))
  /\ (dr_success rc = false -> g' = g /\ dr_error rc = Some OOG).
Proof.
  intros e ev m g rc g'. unfold deploy. destruct (decoded (dec_sections None) m) as [l|]; [|discriminate].
  unfold deploy_price. destruct (gas_lt (env_gas_limit ev) (1000 * nlen m)) eqn:Eg.
  - intros [= <- <-]. unfold gas_lt in Eg. destruct (env_gas_limit ev); [|discriminate].
    split; [split; [intros H; discriminate H|intros; lia]|]. split; [intros H; discriminate H|split; reflexivity].
  - destruct (code_of l); [|discriminate]. destruct (template_create _ _ _ _ g) as [[[]|?|] ?]; try discriminate.
    intros [= <- <-]. split; [split; [intros _|reflexivity]|split; [reflexivity|intros H; discriminate H]].
    unfold gas_lt in Eg. destruct (env_gas_limit ev); [lia|exact I].
Qed.
Print Assumptions C30_deploy_price.
Example C30_satisfiable :
  option_map dr_gas_used (fst (deploy rx_env (rx_envelope (Some (1000 * nlen (rx_deploy 1)))) (rx_deploy 1) rx_start))
    = Some (Some (1000 * nlen (rx_deploy 1)))
  /\ option_map dr_success (fst (deploy rx_env (rx_envelope (Some (1000 * nlen (rx_deploy 1) - 1))) (rx_deploy 1) rx_start))
    = Some false.
Proof. split; vm_compute; reflexivity. Qed.

(* ------------------------------------------------------------------------------------ *)
(** * C31 The gas tank *)

(** After any requests the tank holds what is left of its contents, or is empty, the
    latter exactly when the requests reach the contents. *)
Theorem C31_consume :
  forall n requests, requests <> [] ->
  fold_left consume requests (NonEmpty n)
  = if n <=? total requests then Empty else NonEmpty (n - total requests).
Proof.
  intros n l H. rewrite consume_all. destruct l; [contradiction|].
  destruct (N.leb_spec n (total (n0 :: l))); [now replace (_ <? n) with false by lia|now replace (_ <? n) with true by lia].
Qed.
Print Assumptions C31_consume.
Theorem C31_never_refills :
  forall t requests, tank_unwrap (fold_left consume requests t) <= tank_unwrap t
  /\ (tank_is_empty t = true -> tank_is_empty (fold_left consume requests t) = true).
Proof.
  intros t l. rewrite consume_all. destruct t as [n|]; [|split; [apply N.le_refl|auto]]. split; [|discriminate].
  destruct l; cbn [tank_unwrap]; [lia|]. destruct (_ <? n); cbn [tank_unwrap]; lia.
Qed.
Print Assumptions C31_never_refills.
Example C31_satisfiable :
  fold_left consume [10; 20] (NonEmpty 100) = NonEmpty 70 /\ fold_left consume [10; 90] (NonEmpty 100) = Empty.
Proof. split; reflexivity. Qed.

(** Spawn is refused without effect when the limit is at most the price of its message. *)
Theorem C31_spawn_out_of_gas :
  forall e en ev m c g sp sections names n,
  decoded dec_spawn m = Some sp -> fst (template_sections e (sp_template sp) g) = Ok sections ->
  ctors_of sections = Some names -> In (sp_ctor sp) names ->
  env_gas_limit ev = Some n -> n <= 1000 * nlen m ->
  exists rc, spawn e en ev m c g = (Some rc, c, g) /\ sr_success rc = false /\ sr_error rc = Some OOG.
Proof.
  intros e en ev m c g sp l names n Ed El Hc Hin Hg Hn. erewrite spawn_out_of_gas; eauto.
  unfold is_ctor. rewrite Hc. cbn [obind]. f_equal. apply existsb_exists. exists (sp_ctor sp). split; auto.
  now apply ReceiptProofs.bytes_eqb_spec.
Qed.
Print Assumptions C31_spawn_out_of_gas.

(** Unlike deploy, a spawn with a limit of exactly its price is out of gas. *)
Theorem C31_exact_gas_refuted :
  ~ (forall n request, request <= n -> tank_is_empty (consume (NonEmpty n) request) = false).
Proof. intros H. specialize (H 5 5 (N.le_refl 5)). discriminate H. Qed.
Print Assumptions C31_exact_gas_refuted.

(* ------------------------------------------------------------------------------------ *)
(** * C59 A call affects only its target and the balances it lists *)

Theorem C59_call_isolated :
  forall e en g c m tx rc g',
  iterates e -> collision_free e -> hash_wf e -> engine_wf en -> rt_reachable e en g c -> bytes_ok m ->
  decoded dec_transaction m = Some tx ->
  rt_call e en m g = (Some rc, g') -> cr_success rc = true ->
  In (tx_target tx) (cr_touched rc)
  /\ unchanged_except e (fun x => In x (cr_touched rc)) (fun x => x = tx_target tx) g g'.
Proof.
  intros e en g c m tx rc g' HI HC HH HE HR Hm Ed E Hok. pose proof (rt_live e en g c HI HC HH HE HR) as HL.
  eapply call_cases in E; eauto. destruct E as (_ & _ & K). rewrite Hok in K. split; apply K.
Qed.
Print Assumptions C59_call_isolated.
(** Even when it fails or aborts, it changes at most balances and its target's variables. *)
Theorem C59_any_outcome :
  forall e en g c m tx r g',
  iterates e -> collision_free e -> hash_wf e -> engine_wf en -> rt_reachable e en g c -> bytes_ok m ->
  decoded dec_transaction m = Some tx -> rt_call e en m g = (r, g') ->
  unchanged_except e everyone (fun x => x = tx_target tx) g g'.
Proof.
  intros e en g c m tx r g' HI HC HH HE HR Hm Ed E. pose proof (rt_live e en g c HI HC HH HE HR) as HL.
  eapply call_cases in E; eauto. apply E.
Qed.
Print Assumptions C59_any_outcome.
Example C59_satisfiable :
  let (r, g') := rt_call rx_env rx_engine (rx_call (txt "pay")) rx_state in
  option_map cr_touched r = Some [rx_a; rx_b] /\ option_map cr_success r = Some true
  /\ fst (account_balance rx_env rx_a g') = Ok 95 /\ fst (account_balance rx_env rx_b g') = Ok 55
  /\ fst (get_var_i64 rx_env rx_acc 0 g') = Ok 7.
Proof. vm_compute. repeat split; reflexivity. Qed.

(** The accounts listed by a receipt that reports failure do not cover the balances that
    changed: the list is empty although the transfer made before the trap stays. *)
Definition rx_pay_then_trap : engine :=
  mkEngine bytes (fun _ => None) (fun _ => WReturn (rx_a ++ rx_b ++ repeat 0 60) []) (fun _ => true)
    (fun _ name => Some (if bytes_eqb name svm_alloc then SigAlloc else SigUnit))
    (fun _ name _ mem => if bytes_eqb name svm_alloc then WReturn mem ([40], [])
                         else WHost mem (HTransfer 0 20 5) (fun _ _ => WTrap []))
    (fun _ => None) (fun _ => None).
Lemma rx_pay_then_trap_wf : engine_wf rx_pay_then_trap.
Proof.
  split; [intros; constructor; apply bytes_okb_ok; reflexivity|]. intros i name args mem Hm. cbn [en_call rx_pay_then_trap].
  destruct (bytes_eqb name svm_alloc); constructor; auto. intros. constructor.
Qed.
Theorem C59_touched_covers_failures_refuted :
  ~ (forall e en g m tx rc g',
       iterates e -> collision_free e -> hash_wf e -> engine_wf en -> live e g -> bytes_ok m ->
       decoded dec_transaction m = Some tx -> rt_call e en m g = (Some rc, g') ->
       forall x, array_wf 20 x -> ~ In x (cr_touched rc) ->
       fst (account_balance e x g') = fst (account_balance e x g)).
Proof.
  intros H.
  destruct (rt_call rx_env rx_pay_then_trap (rx_call (txt "pay")) rx_state) as [[rc|] g'] eqn:E; [|vm_compute in E; discriminate E].
  destruct (decoded dec_transaction (rx_call (txt "pay"))) as [tx|] eqn:Ed; [|vm_compute in Ed; discriminate Ed].
  specialize (H rx_env rx_pay_then_trap rx_state (rx_call (txt "pay")) tx rc g' rx_iterates rx_collision_free rx_hash_wf
    rx_pay_then_trap_wf rx_live).
  assert (Hok : bytes_ok (rx_call (txt "pay"))) by (apply bytes_okb_ok; vm_compute; reflexivity).
  specialize (H Hok Ed E rx_a rx_a_wf). vm_compute in E. injection E as <- <-.
  specialize (H (fun x => x)). vm_compute in H. discriminate H.
Qed.
Print Assumptions C59_touched_covers_failures_refuted.

(* ------------------------------------------------------------------------------------ *)
(** * C60 Receipts report the state that was committed *)

Theorem C60_call_commits :
  forall e en g c m rc g',
  iterates e -> collision_free e -> hash_wf e -> engine_wf en -> rt_reachable e en g c -> bytes_ok m ->
  rt_call e en m g = (Some rc, g') -> cr_success rc = true -> committed_with g' (cr_new_state rc).
Proof.
  intros e en g c m rc g' HI HC HH HE HR Hm E Hok. pose proof (rt_live e en g c HI HC HH HE HR) as HL.
  destruct (decoded dec_transaction m) as [tx|] eqn:Ed.
  - eapply call_cases in E; eauto. destruct E as (_ & _ & K). rewrite Hok in K. apply K.
  - unfold rt_call in E. rewrite Ed in E. discriminate.
Qed.
Print Assumptions C60_call_commits.
Theorem C60_spawn_commits :
  forall e en g c ev m rc c' g',
  iterates e -> collision_free e -> hash_wf e -> engine_wf en -> rt_reachable e en g c -> bytes_ok m ->
  spawn e en ev m c g = (Some rc, c', g') -> sr_success rc = true -> committed_with g' (sr_init_state rc).
Proof.
  intros e en g c ev m rc c' g' HI HC HH HE HR Hm E Hok. pose proof (rt_live e en g c HI HC HH HE HR) as HL.
  destruct (spawn_effect e en ev m c g rc c' g' HI HC HH HE HL Hm E Hok) as (sp & _ & K). apply K.
Qed.
Print Assumptions C60_spawn_commits.
Example C60_satisfiable :
  let (r, g') := rt_call rx_env rx_engine (rx_call (txt "set")) rx_state in
  option_map cr_success r = Some true /\ exists fp, option_map cr_new_state r = Some (Some fp) /\ fst (gs_current_layer g') = Ok (1, fp).
Proof. vm_compute. split; [reflexivity|]. eexists. split; reflexivity. Qed.

(* ------------------------------------------------------------------------------------ *)
(** * C61 verify reports success *)

(** Verification never produces a receipt reporting success: with storage access denied,
    committing the changes of a function that returned normally aborts.  So the property
    "a contract whose verification function accepts is reported as verified" is false. *)
Theorem C61_verify_never_succeeds :
  forall e en m g rc, fst (verify e en m g) = Some rc -> cr_success rc = false.
Proof. intros e en m g. apply verify_pure. Qed.
Print Assumptions C61_verify_never_succeeds.
(** Verification runs the function [svm_verify] and none but it and [svm_alloc]: whatever
    function a receipt complains about is one of the two, and a contract without
    [svm_verify] is told so. *)
Theorem C61_verify_runs_svm_verify :
  forall e en m g rc, fst (verify e en m g) = Some rc ->
  match cr_error rc with
  | Some (FuncFailed _ _ name _) | Some (FuncNotFound _ _ name) | Some (FuncInvalidSignature _ _ name)
  | Some (FuncNotAllowed _ _ name _) => name = txt "svm_verify" \/ name = txt "svm_alloc"
  | Some (FuncNotCtor _ _) => False
  | _ => True
  end.
Proof.
  intros e en m g rc. unfold verify. destruct (decoded dec_transaction m) as [tx|]; [|discriminate].
  unfold transact, build_call, gbind, gunwrap.
  destruct (account_load e (tx_target tx) g) as [[a|?|] g1]; try discriminate.
  destruct (account_template e (tx_target tx) g1) as [[t|?|] g2]; try discriminate. cbn [gret].
  set (cl := mkCall _ _ _ _ _ _). unfold exec_call.
  destruct (exec e en cl g2) as [[r|[er logs]|] g3] eqn:E; try discriminate; cbn [fst]; intros [= <-].
  - apply exec_ok_error in E. now rewrite E.
  - cbn [call_from_err cr_error]. apply (exec_err_names e en cl g2 er logs g3) in E; [|reflexivity].
    destruct er; cbn [names_only cl_func cl In] in E; intuition.
Qed.
Print Assumptions C61_verify_runs_svm_verify.
(** The verification function of this contract returns at once without touching anything. *)
Theorem C61_accepting_contract_refuted :
  ~ (forall e en g c m, iterates e -> collision_free e -> hash_wf e -> engine_wf en -> rt_reachable e en g c ->
       (forall i args mem, en_call en i svm_verify args mem = WReturn mem ([], i)) ->
       forall tx, decoded dec_transaction m = Some tx -> exists_account e g (tx_target tx) ->
       exists rc, fst (verify e en m g) = Some rc).
Proof.
  intros H.
  pose (en := mkEngine bytes (fun _ => None) (fun _ => WReturn (repeat 0 60) []) (fun _ => true)
    (fun _ name => Some (if bytes_eqb name svm_alloc then SigAlloc else SigUnit))
    (fun i name _ mem => if bytes_eqb name svm_alloc then WReturn mem ([40], i) else WReturn mem ([], i))
    (fun _ => Some (fun _ => Some 0)) (fun _ => Some (fun _ => Some 10))).
  assert (W : engine_wf en).
  { split; [intros; constructor; apply bytes_okb_ok; reflexivity|]. intros i name args mem Hm. unfold en. cbn [en_call].
    destruct (bytes_eqb name svm_alloc); constructor; auto. }
  pose (run := fold_left (fun s o => run_rop rx_env en o s)
    [TDeploy (rx_envelope None) (rx_deploy 1); TSpawn (rx_envelope None) (rx_spawn 1 (txt "init"))] (rx_start, [])).
  assert (R : rt_reachable rx_env en (fst run) (snd run)).
  { unfold run. cbn [fold_left].
    destruct (run_rop rx_env en (TDeploy (rx_envelope None) (rx_deploy 1)) (rx_start, [])) as [g1 c1] eqn:E1.
    destruct (run_rop rx_env en (TSpawn (rx_envelope None) (rx_spawn 1 (txt "init"))) (g1, c1)) as [g2 c2] eqn:E2.
    cbn [fst snd].
    eapply rr_op; [eapply rr_op; [|exact (Forall_inv rx_ops_wf)|exact E1]|exact (Forall_inv (Forall_inv_tail rx_ops_wf))|exact E2].
    apply (rr_new _ _ []); [constructor|]. vm_compute. reflexivity. }
  destruct (decoded dec_transaction (rx_call (txt "set"))) as [tx|] eqn:Ed; [|vm_compute in Ed; discriminate Ed].
  assert (X : exists_account rx_env (fst run) (tx_target tx)).
  { vm_compute in Ed. injection Ed as <-. eexists. vm_compute. reflexivity. }
  destruct (H rx_env en (fst run) (snd run) (rx_call (txt "set")) rx_iterates rx_collision_free rx_hash_wf W R
    (fun _ _ _ => eq_refl) tx Ed X) as [rc E].
  vm_compute in E. discriminate E.
Qed.
Print Assumptions C61_accepting_contract_refuted.

(* ------------------------------------------------------------------------------------ *)
(** * C62 Static allocations *)

(** Allocations that succeed reserve disjoint regions inside the memory, each ending at
    the offset returned.  Missing: the offset returned is documented as, and used as, the
    start of the region. *)
Theorem C62_static_alloc_partial :
  forall e f mem sizes g offsets f' g',
  nlen mem < 2 ^ 32 -> fe_used f <= nlen mem ->
  allocs e f mem sizes g = (Ok (offsets, f'), g') ->
  g' = g /\ length offsets = length sizes
  /\ disjoint_in (nlen mem) (combine (map (fun '(o, n) => o - n) (combine offsets sizes)) sizes).
Proof.
  intros e f mem sizes g os f' g' Hm Hu E. apply allocs_ok in E; auto. destruct E as (-> & -> & E1 & E2).
  split; auto. split.
  - generalize (fe_used f). clear. induction sizes; intros u; cbn [ends length]; auto.
  - destruct (ends_disjoint sizes (fe_used f)) as [H _]. rewrite <- E1 in H. clear - H E2. 
    induction (combine _ sizes) as [|[o n] l IH] in H |- *; cbn [disjoint_in] in *; auto.
    destruct H as (H1 & H2 & H3). split; [lia|]. split; auto.
Qed.
Print Assumptions C62_static_alloc_partial.
Definition rx_func_env : func_env := with_memory (env_new rx_acc (rx_taddr 1) FullAccess).
Theorem C62_regions_from_offset_refuted :
  ~ (forall e f mem sizes g offsets f' g',
       nlen mem < 2 ^ 32 -> fe_used f <= nlen mem -> allocs e f mem sizes g = (Ok (offsets, f'), g') ->
       disjoint_in (nlen mem) (combine offsets sizes)).
Proof.
  intros H. specialize (H rx_env rx_func_env (repeat 0 16) [8; 4] rx_state [8; 12] (with_used 12 rx_func_env) rx_state).
  specialize (H ltac:(reflexivity) ltac:(discriminate) eq_refl). cbn in H. destruct H as (_ & H & _).
  inversion H as [|? ? Hx _]. lia.
Qed.
Print Assumptions C62_regions_from_offset_refuted.
Example C62_satisfiable :
  allocs rx_env rx_func_env (repeat 0 16) [8; 4] rx_state = (Ok ([8; 12], with_used 12 rx_func_env), rx_state).
Proof. reflexivity. Qed.

(* ------------------------------------------------------------------------------------ *)
(** * C63 Integer variables through the host functions *)

Theorem C63_set64_get64 :
  forall e en g c f mem id n,
  iterates e -> collision_free e -> hash_wf e -> engine_wf en -> rt_reachable e en g c ->
  array_wf 20 (ac_addr (fe_account f)) -> fe_mode f = FullAccess -> declares (fe_account f) id 8 -> n < 2 ^ 64 ->
  exists g', host_call e f mem (HSet64 id n) g = (Ok (0, mem, f), g')
    /\ host_call e f mem (HGet64 id) g' = (Ok (n, mem, f), g').
Proof.
  intros e en g c f mem id n HI HC HH HE HR Ha Hm HD Hn. pose proof (rt_live e en g c HI HC HH HE HR) as HL.
  destruct (host_set64_get64 e g f mem id 8 n HI HC HL Ha Hm HD) as (g' & E1 & _ & E2); try lia.
  rewrite N.mod_small in E2 by exact Hn. eauto.
Qed.
Print Assumptions C63_set64_get64.
Theorem C63_set32_get32 :
  forall e en g c f mem id n,
  iterates e -> collision_free e -> hash_wf e -> engine_wf en -> rt_reachable e en g c ->
  array_wf 20 (ac_addr (fe_account f)) -> fe_mode f = FullAccess -> declares (fe_account f) id 4 -> n < 2 ^ 32 ->
  exists g', host_call e f mem (HSet32 id n) g = (Ok (0, mem, f), g')
    /\ host_call e f mem (HGet32 id) g' = (Ok (n, mem, f), g').
Proof.
  intros e en g c f mem id n HI HC HH HE HR Ha Hm HD Hn. pose proof (rt_live e en g c HI HC HH HE HR) as HL.
  destruct (host_set32_get32 e g f mem id 4 n HI HC HL Ha Hm HD) as (g' & E1 & _ & E2); try lia.
  rewrite N.mod_small in E2 by exact Hn. eauto.
Qed.
Print Assumptions C63_set32_get32.
(** Into a shorter variable the value is cut to the variable's size, silently. *)
Theorem C63_short_variables :
  forall e en g c f mem id s n,
  iterates e -> collision_free e -> hash_wf e -> engine_wf en -> rt_reachable e en g c ->
  array_wf 20 (ac_addr (fe_account f)) -> fe_mode f = FullAccess -> declares (fe_account f) id s -> 0 < s -> s <= 8 ->
  exists g', host_call e f mem (HSet64 id n) g = (Ok (0, mem, f), g')
    /\ host_call e f mem (HGet64 id) g' = (Ok (n mod 256 ^ s, mem, f), g').
Proof.
  intros e en g c f mem id s n HI HC HH HE HR Ha Hm HD H0 Hs. pose proof (rt_live e en g c HI HC HH HE HR) as HL.
  destruct (host_set64_get64 e g f mem id s n HI HC HL Ha Hm HD) as (g' & E1 & _ & E2); eauto.
Qed.
Print Assumptions C63_short_variables.
Lemma rx_declares i s : nth_error rx_sizes i = Some s -> declares rx_acc (N.of_nat i) s.
Proof. intros H. exists 0, rx_sizes, i. split; [reflexivity|]. split; [reflexivity|exact H]. Qed.
Theorem C63_every_variable_refuted :
  ~ (forall e en g c f mem id s n,
       iterates e -> collision_free e -> hash_wf e -> engine_wf en -> rt_reachable e en g c ->
       array_wf 20 (ac_addr (fe_account f)) -> fe_mode f = FullAccess -> declares (fe_account f) id s -> 0 < s -> n < 2 ^ 64 ->
       forall g', host_call e f mem (HSet64 id n) g = (Ok (0, mem, f), g') ->
       fst (host_call e f mem (HGet64 id) g') = Ok (n, mem, f)).
Proof.
  intros H. specialize (H rx_env rx_engine rx_state _ rx_func_env [] 1 4 (2 ^ 32)
    rx_iterates rx_collision_free rx_hash_wf rx_engine_wf rx_reachable rx_a_wf eq_refl (rx_declares 1 4 eq_refl) ltac:(lia) ltac:(reflexivity)
    (snd (host_call rx_env rx_func_env [] (HSet64 1 (2 ^ 32)) rx_state))).
  assert (E : host_call rx_env rx_func_env [] (HSet64 1 (2 ^ 32)) rx_state
              = (Ok (0, [], rx_func_env), snd (host_call rx_env rx_func_env [] (HSet64 1 (2 ^ 32)) rx_state))) by (vm_compute; reflexivity).
  specialize (H E). vm_compute in H. discriminate H.
Qed.
Print Assumptions C63_every_variable_refuted.
Example C63_satisfiable :
  declares rx_acc 0 8 /\ declares rx_acc 1 4
  /\ fst (host_call rx_env rx_func_env [] (HGet64 0) (snd (host_call rx_env rx_func_env [] (HSet64 0 (2 ^ 40 + 3)) rx_state)))
     = Ok (2 ^ 40 + 3, [], rx_func_env).
Proof. split; [exact (rx_declares 0 8 eq_refl)|]. split; [exact (rx_declares 1 4 eq_refl)|]. vm_compute. reflexivity. Qed.

(* ------------------------------------------------------------------------------------ *)
(** * C64 Committing a layer from the API *)

(** With nothing pending, commit does not fail and nothing visible changes.  Missing: the
    pending changes of deploys, transfers and balance increases make it fail. *)
Theorem C64_commit_partial :
  forall e en g c,
  iterates e -> collision_free e -> hash_wf e -> engine_wf en -> rt_reachable e en g c ->
  has_uncommitted_changes (gs_storage g) = false ->
  (forall er, fst (rt_commit e g) <> Err er)
  /\ unchanged_except e nobody nobody g (snd (rt_commit e g)).
Proof.
  intros e en g c HI HC HH HE HR Hu. pose proof (rt_live e en g c HI HC HH HE HR) as HL.
  destruct (commit_now e g HI HL Hu) as (HL' & SN & HN). unfold rt_commit.
  assert (U : unchanged_except e nobody nobody g (snd (gs_commit e g))) by (apply same_now_unchanged; auto using live_typed).
  destruct (gs_commit e g) as [[[l f]|er|] g']; cbn [fst snd] in *.
  - split; [discriminate|exact U].
  - exfalso. now apply (HN er).
  - split; [discriminate|exact U].
Qed.
Print Assumptions C64_commit_partial.
Theorem C64_commit_refuted :
  ~ (forall e en g c, iterates e -> collision_free e -> hash_wf e -> engine_wf en -> rt_reachable e en g c ->
       fst (rt_commit e g) = Ok tt).
Proof.
  intros H. specialize (H rx_env rx_engine rx_state _ rx_iterates rx_collision_free rx_hash_wf rx_engine_wf rx_reachable).
  vm_compute in H. discriminate H.
Qed.
Print Assumptions C64_commit_refuted.
Example C64_satisfiable :
  has_uncommitted_changes (gs_storage rx_start) = false
  /\ has_uncommitted_changes (gs_storage (snd (rt_call rx_env rx_engine (rx_call (txt "set")) rx_state))) = false
  /\ fst (rt_commit rx_env (fst (rx_run [TDeploy (rx_envelope None) (rx_deploy 1)] (rx_start, [])))) = Err (OOG, []).
Proof. repeat split; vm_compute; reflexivity. Qed.

(* ------------------------------------------------------------------------------------ *)
(** * C65 A contract spends only its own coins *)

(** False: a contract can move coins out of any account. *)
Theorem C65_spends_own_coins_refuted :
  ~ (forall e en g c m tx rc g',
       iterates e -> collision_free e -> hash_wf e -> engine_wf en -> rt_reachable e en g c -> bytes_ok m ->
       decoded dec_transaction m = Some tx -> rt_call e en m g = (Some rc, g') -> cr_success rc = true ->
       forall x, array_wf 20 x -> x <> tx_target tx -> balance e g x <= balance e g' x).
Proof.
  intros H.
  destruct (rt_call rx_env rx_engine (rx_call (txt "take")) rx_state) as [[rc|] g'] eqn:E; [|vm_compute in E; discriminate E].
  destruct (decoded dec_transaction (rx_call (txt "take"))) as [tx|] eqn:Ed; [|vm_compute in Ed; discriminate Ed].
  specialize (H rx_env rx_engine rx_state _ (rx_call (txt "take")) tx rc g' rx_iterates rx_collision_free rx_hash_wf
    rx_engine_wf rx_reachable).
  assert (Hok : bytes_ok (rx_call (txt "take"))) by (apply bytes_okb_ok; vm_compute; reflexivity).
  specialize (H Hok Ed E).
  assert (Hs : cr_success rc = true) by (vm_compute in E; injection E as <- _; reflexivity).
  assert (Ht : tx_target tx = rx_a) by (vm_compute in Ed; injection Ed as <-; reflexivity).
  specialize (H Hs rx_b rx_b_wf). rewrite Ht in H. specialize (H ltac:(discriminate)).
  clear - H E. assert (B : balance rx_env g' rx_b = 45).
  { change g' with (snd (Some rc, g')). rewrite <- E. vm_compute. reflexivity. }
  rewrite B in H. vm_compute in H. apply H. reflexivity.
Qed.
Print Assumptions C65_spends_own_coins_refuted.

(* ------------------------------------------------------------------------------------ *)
(** * C66 Well-formed templates deploy *)

(** Deploying the encoding of any well-formed sections with a Code section succeeds, given
    enough gas, and stores exactly them. *)
Theorem C66_deploy_succeeds :
  forall e en g c ev m sections code,
  iterates e -> collision_free e -> hash_wf e -> engine_wf en -> rt_reachable e en g c ->
  sections_wf sections -> enc_sections sections = Some m -> code_of sections = Some code ->
  match env_gas_limit ev with Some n => 1000 * nlen m <= n | None => True end ->
  exists g', deploy e ev m g
             = (Some (mkDeployReceipt 0 true None (Some (firstn 20 (env_hash e (cs_code code)))) (Some (1000 * nlen m)) []), g')
    /\ fst (template_sections e (firstn 20 (env_hash e (cs_code code))) g') = Ok sections.
Proof.
  intros e en g c ev m l cs HI HC HH HE HR Hw Hm Hc Hg. pose proof (rt_live e en g c HI HC HH HE HR) as HL.
  destruct (SectionProofs.sections_rt l Hw) as (m' & Em & _ & D). rewrite Hm in Em. apply Some_inj in Em. subst m'.
  specialize (D None []). rewrite app_nil_r, SectionProofs.keep_all in D.
  assert (Ed : decoded (dec_sections None) m = Some l) by (unfold decoded; now rewrite D).
  unfold deploy. rewrite Ed. unfold deploy_price.
  replace (gas_lt (env_gas_limit ev) (1000 * nlen m)) with false by (unfold gas_lt; destruct (env_gas_limit ev); lia).
  rewrite Hc. assert (Ha : array_wf 20 (template_addr e (cs_code cs))) by now apply addr_wf.
  destruct (template_create_effect e _ l l g HC (live_typed e g HI HC HL) Ha Hw Hw) as (g' & -> & _ & _ & F).
  exists g'. split; [reflexivity|]. specialize (F (proj2 HL)). unfold template_addr in F. rewrite F.
  cbn [fst]. f_equal. apply merge_self, Hw.
Qed.
Print Assumptions C66_deploy_succeeds.
Example C66_satisfiable :
  sections_wf (rx_sections 1) /\ enc_sections (rx_sections 1) = Some (rx_deploy 1)
  /\ option_map cs_code (code_of (rx_sections 1)) = Some (rx_code 1).
Proof.
  split; [|split; vm_compute; reflexivity].
  eapply (SectionCanon.sections_accepted None (rx_deploy 1) _ []).
  - apply bytes_okb_ok. vm_compute. reflexivity.
  - vm_compute. reflexivity.
  - vm_compute. reflexivity.
Qed.

(** A message listing 255 constructors decodes, but the sections it decodes to cannot be
    stored: deploying it aborts. *)
Definition rx_many : bytes :=
  match enc_section (SCode (mkCode 0 (rx_code 1) 0 Fixed)), enc_section (SData [rx_layout]),
        enc_seq enc_string (repeat (txt "a") 255) with
  | Some c, Some d, Some s =>
      match finish [(KCode, c); (KData, d); (KCtors, 255 :: s)] with Some m => m | None => [] end
  | _, _, _ => []
  end.
Theorem C66_accepted_messages_deploy_refuted :
  ~ (forall e en g c ev m sections rest,
       iterates e -> collision_free e -> hash_wf e -> engine_wf en -> rt_reachable e en g c -> bytes_ok m ->
       dec_template None m = Ok (sections, rest) -> exists rc, fst (deploy e ev m g) = Some rc).
Proof.
  intros H.
  destruct (dec_template None rx_many) as [[l r]| |] eqn:E; [|vm_compute in E; discriminate E..].
  assert (Hok : bytes_ok rx_many) by (apply bytes_okb_ok; vm_compute; reflexivity).
  destruct (H rx_env rx_engine rx_start _ (rx_envelope None) rx_many l r rx_iterates rx_collision_free rx_hash_wf
    rx_engine_wf rx_start_reachable Hok E) as [rc X].
  vm_compute in X. discriminate X.
Qed.
Print Assumptions C66_accepted_messages_deploy_refuted.

(* ------------------------------------------------------------------------------------ *)
(** ** C22 Reading and writing a variable with a fixed width *)

(** Reading a variable as a number gives the number its bytes spell, and panics when the
    variable is wider than the number; so does writing fewer bytes than it has. *)
Theorem C22_widths :
  forall e g a first sizes i s,
  iterates e -> collision_free e -> gs_reachable e g -> array_wf 20 (ac_addr a) ->
  from_byte_sizes first sizes = Some (ac_layout a) -> nth_error sizes i = Some s -> 0 < s ->
  exists bs, get_var_vec e a (first + N.of_nat i) g = (Ok bs, g) /\ nlen bs = s
    /\ get_var_i32 e a (first + N.of_nat i) g = (if s <=? 4 then Ok (le_value bs) else Panic, g)
    /\ get_var_i64 e a (first + N.of_nat i) g = (if s <=? 8 then Ok (le_value bs) else Panic, g)
    /\ (forall n, get_var_array e a n (first + N.of_nat i) g
          = (if s <=? N.of_nat n then Ok (bs ++ repeat 0 (n - N.to_nat s)) else Panic, g))
    /\ (forall value, nlen value < s -> set_var_bytes e a (first + N.of_nat i) value g = (Panic, g)).
Proof.
  intros e g a first sizes i s HI HC HR Ha HF Hi H0. pose proof (reachable_typed e g HI HC HR) as HT.
  destruct (declared_get _ _ _ _ _ HF Hi) as (v & Hg & HD & Es & Ho).
  set (id := first + N.of_nat i) in *. set (bs := map (byte_at e g (ac_addr a)) (range (rv_offset v) (N.to_nat (rv_size v)))).
  assert (V : get_var_vec e a id g = (Ok bs, g)) by (apply get_var_vec_eq; auto; lia).
  assert (L : nlen bs = s).
  { unfold bs, nlen. rewrite map_length, range_length. lia. }
  assert (AR : forall n, get_var_array e a n id g
          = (if s <=? N.of_nat n then Ok (bs ++ repeat 0 (n - N.to_nat s)) else Panic, g)).
  { intros n. destruct (N.leb_spec s (N.of_nat n)) as [Hn|Hn]; unfold get_var_array.
    - rewrite (get_var_eq e a _ _ g v Ha HT Hg) by (unfold nlen; rewrite ?repeat_length; lia). fold bs. do 3 f_equal. rewrite Es.
      clear. generalize (N.to_nat s) as k. intros k. revert n.
      induction k as [|k IH]; intros [|w]; cbn [repeat skipn Nat.sub]; auto.
    - unfold get_var, gbind, var_range. rewrite Hg. cbn [obind].
      replace (nlen (repeat 0 n) <? rv_size v) with true; [reflexivity|]. unfold nlen. rewrite repeat_length. lia. }
  exists bs. split; [exact V|]. split; [exact L|].
  split; [|split; [|split; [exact AR|]]].
  - unfold get_var_i32, gbind. rewrite AR. change (N.of_nat 4) with 4. destruct (s <=? 4); [|reflexivity]. cbn [gret].
    unfold gret. now rewrite le_value_pad.
  - unfold get_var_i64, gbind. rewrite AR. change (N.of_nat 8) with 8. destruct (s <=? 8); [|reflexivity]. cbn [gret].
    unfold gret. now rewrite le_value_pad.
  - intros value Hv. unfold set_var_bytes, gbind, var_range. rewrite Hg. cbn [obind].
    replace (nlen value <? rv_size v) with true by lia. reflexivity.
Qed.
Print Assumptions C22_widths.
Example C22_widths_satisfiable :
  from_byte_sizes 0 rx_sizes = Some rx_layout /\ nth_error rx_sizes 1 = Some 4
  /\ fst (get_var_i32 rx_env (mkAccount rx_a (rx_taddr 1) rx_layout) 0 rx_state) = Panic
  /\ fst (get_var_i64 rx_env (mkAccount rx_a (rx_taddr 1) rx_layout) 0 rx_state) = Ok 7
  /\ fst (get_var_i32 rx_env (mkAccount rx_a (rx_taddr 1) rx_layout) 1 rx_state) = Ok 0.
Proof. repeat split; vm_compute; reflexivity. Qed.
