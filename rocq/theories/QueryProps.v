(** C102: the client's view of an account's storage. *)
From Coq Require Import String List NArith ZArith Bool Lia ZifyBool ZifyNat ZifyN.
From Verif Require Import Base Text CodecModel CodecSpec ReceiptModel LayoutModel SectionModel StorageModel StorageSpec StorageProps GlobalModel GlobalSpec GlobalProofs GlobalProps.
From Verif Require Import JsonModel AbiProofs QueryModel QuerySpec QueryProofs.
Import ListNotations.
Open Scope string_scope.
Open Scope list_scope.
Open Scope N_scope.

(** ** C102 Clients see the variables of an account *)

(** Bytes of the declared length are shown as their type says. *)
Theorem C102_renders :
  forall v bs j, bytes_ok bs -> nlen bs = q_length v ->
  render v bs = Some (Some j) <-> shows (q_type v) bs j.
Proof. exact render_shows. Qed.
Print Assumptions C102_renders.
(** Two different contents of a variable are never shown alike. *)
Theorem C102_distinguishes :
  forall v a b j, bytes_ok a -> bytes_ok b -> nlen a = q_length v -> nlen b = q_length v ->
  render v a = Some (Some j) -> render v b = Some (Some j) -> a = b.
Proof.
  intros v a b j Ha Hb La Lb Ra Rb. apply render_shows in Ra, Rb; auto. apply (shows_inj (q_type v) a b j); auto. congruence.
Qed.
Print Assumptions C102_distinguishes.
(** A query answers its requests in order, one for one: what the variable that was described last
    under the requested id contains, and nothing if there is none or the storage has none. *)
Theorem C102_query :
  forall raw vs ids l, fst (run_query (reading raw) (added vs) ids tt) = Some l ->
  List.length l = List.length ids /\
  forall i id, nth_error ids i = Some id ->
  exists r, nth_error l i = Some r /\
    (forall v bs, latest vs id v -> raw id v = Some bs -> bytes_ok bs -> nlen bs = q_length v ->
       forall j, r = Some j <-> shows (q_type v) bs j)
    /\ (forall v, latest vs id v -> raw id v = None -> r = None)
    /\ ((forall v, In v vs -> q_id v <> id) -> r = None).
Proof.
  intros raw vs ids l E. split; [eapply run_length; exact E|]. intros i id Hi. destruct (run_nth raw _ ids l E i id Hi) as (r & Hr & Er).
  exists r. split; [exact Hr|]. unfold read_var, reading in Er. repeat split.
  - intros ->. rewrite (proj2 (latest_find vs id v) H) in Er. rewrite H0 in Er. cbn [fst] in Er. now apply render_shows.
  - intros Hs. rewrite (proj2 (latest_find vs id v) H) in Er. rewrite H0 in Er. cbn [fst] in Er. apply render_shows in Hs; auto. congruence.
  - intros v Hv Hn. rewrite (proj2 (latest_find vs id v) Hv), Hn in Er. cbn [fst] in Er. congruence.
  - intros Hn. destruct (schema_var (added vs) id) as [v|] eqn:Ev; [|cbn [fst] in Er; congruence]. apply latest_find in Ev.
    destruct Ev as (l1 & l2 & -> & Hid & _). exfalso. apply (Hn v); auto. apply in_or_app. right. now left.
Qed.
Print Assumptions C102_query.
(** The same for storages that change when they are read, such as caches. *)
Theorem C102_session :
  forall St (raw : St -> N -> qvar -> option bytes * St) vs ids st l st',
  run_query raw (added vs) ids st = (Some l, st') -> session raw vs ids st l st'.
Proof.
  intros St raw vs ids. induction ids as [|id ids IH]; intros st l st' E; cbn [run_query] in E.
  - injection E as <- <-. constructor.
  - unfold read_var in E. destruct (schema_var (added vs) id) as [v|] eqn:Ev.
    + apply latest_find in Ev. destruct (raw st id v) as [o st1] eqn:Er.
      assert (X : exists r l0, l = r :: l0 /\ run_query raw (added vs) ids st1 = (Some l0, st') /\ match o with Some bs => render v bs = Some r | None => r = None end).
      { destruct o as [bs|]; [destruct (render v bs) as [r|] eqn:Rd; [|discriminate E]|];
          destruct (run_query raw (added vs) ids st1) as [[l0|] st2]; try discriminate E; injection E as <- <-; eauto. }
      destruct X as (r & l0 & -> & E0 & Hr). apply IH in E0. apply (session_read raw vs id ids st v r l0 st' Ev); rewrite Er; cbn [fst snd]; [| |exact E0].
      * intros ->. exact Hr.
      * intros bs -> Ok L j. rewrite <- (render_shows v bs j Ok L), Hr. split; congruence.
    + destruct (run_query raw (added vs) ids st) as [[l0|] st2] eqn:E0; try discriminate E. injection E as <- <-. apply session_unknown; [|now apply IH].
      intros v I1 Hid. assert (N0 : forall w, ~ latest vs id w) by (intros w Hw; apply latest_find in Hw; congruence). apply (N0 v). clear - I1 Hid N0.
      exfalso. revert I1. assert (A : forall l, (exists w, In w l /\ q_id w = id) -> exists w, latest l id w).
      { intros l. induction l as [|x l IH] using rev_ind; intros (w & I1 & Hw); [destruct I1|].
        destruct (N.eq_dec (q_id x) id) as [Hx|Hx]; [exists x, l, []; split; [reflexivity|]; split; [exact Hx|intros y []]|].
        apply in_app_or in I1. destruct I1 as [I1|[<-|[]]]; [|congruence]. destruct IH as [w' (l1 & l2 & -> & H1 & H2)]; [eauto|].
        exists w', l1, (l2 ++ [x]). split; [now rewrite <- app_assoc|]. split; [exact H1|]. intros y I2. apply in_app_or in I2. destruct I2 as [I2|[<-|[]]]; auto. }
      intros I1. destruct (A vs) as [w Hw]; [eauto|]. exact (N0 w Hw).
Qed.
Print Assumptions C102_session.
(** It aborts exactly for balances, truth values that are not one byte, and integers with more
    than eight bytes, none, or fewer than described. *)
Theorem C102_aborts :
  forall raw vs ids,
  fst (run_query (reading raw) (added vs) ids tt) = None <->
  exists id v bs, In id ids /\ latest vs id v /\ raw id v = Some bs /\
    (q_type v = TBalance \/ (q_type v = TBool /\ nlen bs <> 1) \/
     ((exists s, q_type v = TInt s) /\ q_length v <= 8 /\ (nlen bs < q_length v \/ nlen bs = 0 \/ 8 < nlen bs))).
Proof.
  intros raw vs ids. rewrite run_panics. split.
  - intros (id & Hid & E). unfold read_var, reading in E. destruct (schema_var (added vs) id) as [v|] eqn:Ev; [|discriminate E].
    destruct (raw id v) as [bs|] eqn:Eb; [|discriminate E]. cbn [fst] in E. apply render_panics in E.
    exists id, v, bs. split; [exact Hid|]. split; [now apply latest_find|]. auto.
  - intros (id & v & bs & Hid & Hl & Eb & C). exists id. split; [exact Hid|]. unfold read_var, reading. rewrite (proj2 (latest_find vs id v) Hl), Eb. cbn [fst].
    now apply render_panics.
Qed.
Print Assumptions C102_aborts.
(** Bytes written to a variable of an account are shown by a query of that account. *)
Theorem C102_account :
  forall e g a first sizes i s value g' v vs t,
  iterates e -> collision_free e -> gs_reachable e g -> array_wf 20 (ac_addr a) ->
  from_byte_sizes first sizes = Some (ac_layout a) -> nth_error sizes i = Some s -> 0 < s -> nlen value = s -> bytes_ok value ->
  latest vs (first + N.of_nat i) v -> q_length v = s -> q_type v = t -> t = TBlob \/ t = TAddress \/ t = TPubKey ->
  set_var_bytes e a (first + N.of_nat i) value g = (Ok tt, g') ->
  exists j, fst (run_query (reading (of_account e a g')) (added vs) [first + N.of_nat i] tt) = Some [Some j] /\ shows t value j.
Proof.
  intros e g a first sizes i s value g' v vs t HI HC HR Ha Hl Hs Hpos Hv Hok HL Hq Ht T Ew.
  destruct (C22_set_then_get e g a first sizes i s value HI HC HR Ha Hl Hs Hpos ltac:(lia) Hok) as (g2 & E2 & _ & G2).
  rewrite Ew in E2. injection E2 as <-.
  assert (R : of_account e a g' (first + N.of_nat i) v = Some value).
  { unfold of_account. rewrite G2. cbn [fst]. f_equal. rewrite <- Hv. apply firstn_all_n. }
  cbn [run_query]. unfold read_var, reading. rewrite (proj2 (latest_find _ _ _) HL), R.
  assert (X : exists j, render v value = Some (Some j)).
  { unfold render. rewrite Ht. destruct T as [->|[-> | ->]]; unfold render_hex; eauto. }
  destruct X as [j Ej]. rewrite Ej. exists j. split; [reflexivity|]. apply render_shows in Ej; auto; [now rewrite Ht in Ej|congruence].
Qed.
Print Assumptions C102_account.
(** An unsigned integer that was stored is shown exactly when its bytes are the same in both
    directions, so always if it has one byte: the storage is little endian and the client reads
    big endian. *)
Theorem C102_integers_partial :
  forall e g a first sizes i s n g' v vs,
  iterates e -> collision_free e -> gs_reachable e g -> array_wf 20 (ac_addr a) ->
  from_byte_sizes first sizes = Some (ac_layout a) -> nth_error sizes i = Some s -> 0 < s <= 8 -> n < 256 ^ s ->
  latest vs (first + N.of_nat i) v -> q_length v = s -> q_type v = TInt false ->
  set_var_i64 e a (first + N.of_nat i) n g = (Ok tt, g') ->
  fst (run_query (reading (of_account e a g')) (added vs) [first + N.of_nat i] tt) = Some [Some (JNum (Z.of_N n))]
  <-> rev (be_bytes (N.to_nat s) n) = be_bytes (N.to_nat s) n.
Proof.
  intros e g a first sizes i s n g' v vs HI HC HR Ha Hl Hs Hpos Hn HL Hq Ht Ew. unfold set_var_i64 in Ew.
  assert (L8 : nlen (le_bytes 8 n) = 8) by (unfold nlen; now rewrite le_bytes_length).
  destruct (C22_set_then_get e g a first sizes i s (le_bytes 8 n) HI HC HR Ha Hl Hs ltac:(lia) ltac:(lia) (le_bytes_ok 8 n)) as (g2 & E2 & _ & G2).
  rewrite Ew in E2. injection E2 as <-.
  assert (F : firstn (N.to_nat s) (le_bytes 8 n) = le_bytes (N.to_nat s) n).
  { unfold le_bytes. rewrite firstn_rev, be_bytes_length. f_equal. replace 8%nat with ((8 - N.to_nat s) + N.to_nat s)%nat at 2 by lia. apply be_bytes_skip. }
  rewrite F in G2. set (bs := le_bytes (N.to_nat s) n) in *.
  assert (Ok : bytes_ok bs) by apply le_bytes_ok. assert (Ln : nlen bs = s) by (unfold nlen, bs; rewrite le_bytes_length; lia).
  assert (R : of_account e a g' (first + N.of_nat i) v = Some bs) by (unfold of_account; now rewrite G2).
  cbn [run_query]. unfold read_var, reading. rewrite (proj2 (latest_find _ _ _) HL), R. unfold render. rewrite Ht, render_int_eq by congruence.
  destruct (N.ltb_spec 8 (nlen bs)); [lia|]. destruct (N.eqb_spec (nlen bs) 0); [lia|]. cbn [option_map fst].
  assert (V : le_value bs = n) by (unfold bs; rewrite le_value_le_bytes; apply N.mod_small; now rewrite Nnat.N2Nat.id).
  assert (P : rev bs = bs <-> rev (be_bytes (N.to_nat s) n) = be_bytes (N.to_nat s) n).
  { unfold bs, le_bytes. rewrite rev_involutive. split; intros X; congruence. }
  rewrite <- P, <- (shown_palindrome bs Ok), V. split; [|now intros ->]. intros X. apply N2Z.inj. congruence.
Qed.
Print Assumptions C102_integers_partial.
Definition qx_sizes : list N := [8; 1; 4; 1].
Definition qx_account : account :=
  mkAccount ex_addr ex_taddr (match from_byte_sizes 0 qx_sizes with Some l => l | None => default_layout end).
Theorem C102_integers_refuted :
  ~ (forall e g a first sizes i s n g' v vs,
     iterates e -> collision_free e -> gs_reachable e g -> array_wf 20 (ac_addr a) ->
     from_byte_sizes first sizes = Some (ac_layout a) -> nth_error sizes i = Some s -> 0 < s <= 8 -> n < 256 ^ s ->
     latest vs (first + N.of_nat i) v -> q_length v = s -> q_type v = TInt false ->
     set_var_i64 e a (first + N.of_nat i) n g = (Ok tt, g') ->
     fst (run_query (reading (of_account e a g')) (added vs) [first + N.of_nat i] tt) = Some [Some (JNum (Z.of_N n))]).
Proof.
  intros H.
  assert (E : Some [Some (JNum 72057594037927936)] = Some [Some (JNum 1)]).
  { apply (H ex_env ex_g1 qx_account 0 qx_sizes 0%nat 8 1 (snd (set_var_i64 ex_env qx_account 0 1 ex_g1)) (mkQvar 0 0 8 (TInt false)) [mkQvar 0 0 8 (TInt false)]);
      try reflexivity; try lia; [apply ex_env_iterates|apply ex_collision_free|apply ex_g1_reachable|now apply ex_addr_wf|].
    exists [], []. repeat split. intros w []. }
  discriminate E.
Qed.
Print Assumptions C102_integers_refuted.
(** A balance that is described as one cannot be looked at. *)
Theorem C102_answers_refuted :
  ~ (forall raw vs ids, (forall id v bs, raw id v = Some bs -> bytes_ok bs /\ nlen bs = q_length v) ->
     (forall v, In v vs -> q_length v = 8) -> (forall v, In v vs -> q_type v <> TBool) ->
     exists l, fst (run_query (reading raw) (added vs) ids tt) = Some l).
Proof.
  intros H.
  destruct (H (fun _ v => Some (repeat 0 (N.to_nat (q_length v)))) [mkQvar 0 0 8 TBalance] [0]) as [l E].
  - intros id v bs [= <-]. split; [apply Forall_forall; intros x Hx; apply repeat_spec in Hx; now subst|]. unfold nlen. rewrite repeat_length. lia.
  - intros v [<-|[]]. reflexivity.
  - intros v [<-|[]]. discriminate.
  - vm_compute in E. discriminate E.
Qed.
Print Assumptions C102_answers_refuted.

(** Four variables, one described twice, of an account that wrote three of them. *)
Definition qx_vars : list qvar :=
  [mkQvar 1 8 1 TBlob; mkQvar 0 0 8 (TInt true); mkQvar 1 8 1 (TInt false); mkQvar 2 9 4 TAddress; mkQvar 3 13 1 TBool].
Definition qx_state : gstate :=
  snd (set_var_bytes ex_env qx_account 3 [1] (snd (set_var_bytes ex_env qx_account 0 (repeat 255 7 ++ [254]) (snd (set_var_i64 ex_env qx_account 1 200 ex_g1))))).
Example C102_satisfiable :
  fst (run_query (reading (of_account ex_env qx_account qx_state)) (added qx_vars) [1; 0; 7; 2; 3; 1] tt)
    = Some [Some (JNum 200); Some (JNum (-2)); None; Some (JStr (txt "0x00000000")); Some (JBool true); Some (JNum 200)]
  /\ latest qx_vars 1 (mkQvar 1 8 1 (TInt false)) /\ nth_error qx_sizes 1 = Some 1
  /\ from_byte_sizes 0 qx_sizes = Some (ac_layout qx_account)
  /\ fst (set_var_bytes ex_env qx_account 2 [1; 2; 3; 4] ex_g1) = Ok tt
  /\ fst (set_var_i64 ex_env qx_account 1 200 ex_g1) = Ok tt.
Proof.
  split; [vm_compute; reflexivity|]. split.
  - exists [mkQvar 1 8 1 TBlob; mkQvar 0 0 8 (TInt true)], [mkQvar 2 9 4 TAddress; mkQvar 3 13 1 TBool]. repeat split.
    intros w [<-|[<-|[]]]; discriminate.
  - repeat split; vm_compute; reflexivity.
Qed.
