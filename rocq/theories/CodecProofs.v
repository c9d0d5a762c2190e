(** Lemmas for the binary codec. *)
From Coq Require Import List NArith ZArith Lia Bool.
From Coq Require Import ZifyBool ZifyNat ZifyN.
From Verif Require Import Base CodecModel CodecSpec.
Import ListNotations.
Open Scope N_scope.

Lemma read_bytes_app l rest : read_bytes (length l) (l ++ rest) = Ok (l, rest).
Proof.
  induction l as [|b l IH]; simpl; auto. rewrite IH. reflexivity.
Qed.

Lemma read_bytes_app_n n l rest : length l = n -> read_bytes n (l ++ rest) = Ok (l, rest).
Proof. intros <-. apply read_bytes_app. Qed.

Lemma read_bytes_inv n bs l r : read_bytes n bs = Ok (l, r) -> length l = n /\ bs = l ++ r.
Proof.
  revert bs l. induction n; intros bs l; simpl.
  - intros [= <- <-]. auto.
  - destruct bs as [|b bs]; simpl; [discriminate|].
    destruct (read_bytes n bs) as [[l' r']| |] eqn:E; simpl; try discriminate.
    intros [= <- <-]. apply IHn in E as [<- ->]. auto.
Qed.

Lemma read_bytes_cases n bs :
  (exists l r, read_bytes n bs = Ok (l, r) /\ bs = l ++ r /\ length l = n)
  \/ read_bytes n bs = Err Eof.
Proof.
  revert bs. induction n; intros bs; simpl.
  - left. exists [], bs. auto.
  - destruct bs as [|b bs]; simpl; auto.
    destruct (IHn bs) as [(l & r & -> & -> & <-)| ->]; simpl; auto.
    left. exists (b :: l), r. auto.
Qed.

(** ** Primitive encoders *)

Lemma pow2_256 k : 2 ^ (8 * k) = 256 ^ k.
Proof. rewrite N.pow_mul_r. reflexivity. Qed.

Lemma dec_uint_app w n rest : n < 256 ^ N.of_nat w ->
  dec_uint w (be_bytes w n ++ rest) = Ok (n, rest).
Proof.
  intros H. unfold dec_uint.
  rewrite read_bytes_app_n by apply be_bytes_length. simpl.
  now rewrite be_value_be_bytes_small.
Qed.

Lemma dec_uint_inv w bs n r : bytes_ok bs -> dec_uint w bs = Ok (n, r) ->
  n < 256 ^ N.of_nat w /\ bs = be_bytes w n ++ r /\ bytes_ok r.
Proof.
  unfold dec_uint. intros Hok H.
  destruct (read_bytes w bs) as [[l r']| |] eqn:E; simpl in H; try discriminate.
  injection H as <- <-. apply read_bytes_inv in E as [Hl ->].
  apply bytes_ok_app in Hok as [Hl' Hr].
  split; [|split; auto].
  - rewrite <- Hl. apply be_value_bound. exact Hl'.
  - rewrite <- Hl. now rewrite be_bytes_be_value.
Qed.

Lemma dec_uint_nopanic w bs : dec_uint w bs <> Panic.
Proof.
  unfold dec_uint. destruct (read_bytes_cases w bs) as [(l & r & -> & _)| ->]; simpl; discriminate.
Qed.

Lemma dec_u16_app n rest : uint_wf 16 n -> dec_u16 (be_bytes 2 n ++ rest) = Ok (n, rest).
Proof. intros. apply dec_uint_app. exact H. Qed.
Lemma dec_u32_app n rest : uint_wf 32 n -> dec_u32 (be_bytes 4 n ++ rest) = Ok (n, rest).
Proof. intros. apply dec_uint_app. exact H. Qed.
Lemma dec_u64_app n rest : uint_wf 64 n -> dec_u64 (be_bytes 8 n ++ rest) = Ok (n, rest).
Proof. intros. apply dec_uint_app. exact H. Qed.
Lemma dec_u128_app n rest : uint_wf 128 n -> dec_u128 (be_bytes 16 n ++ rest) = Ok (n, rest).
Proof. intros. apply dec_uint_app. exact H. Qed.

Lemma dec_array_app k l rest : array_wf k l -> dec_array k (l ++ rest) = Ok (l, rest).
Proof. intros [H _]. now apply read_bytes_app_n. Qed.

Lemma dec_data_app w d rest : nlen d < 256 ^ N.of_nat w ->
  dec_data w (be_bytes w (nlen d) ++ d ++ rest) = Ok (d, rest).
Proof.
  intros H. unfold dec_data. rewrite dec_uint_app by auto. simpl.
  apply read_bytes_app_n. unfold nlen. lia.
Qed.

Lemma enc_data_some w d : nlen d < 256 ^ N.of_nat w -> enc_data w d = Some (be_bytes w (nlen d) ++ d).
Proof. intros. unfold enc_data. destruct (N.ltb_spec (nlen d) (256 ^ N.of_nat w)); auto. lia. Qed.

Lemma dec_data_inv w bs d r : bytes_ok bs -> dec_data w bs = Ok (d, r) ->
  nlen d < 256 ^ N.of_nat w /\ bs = (be_bytes w (nlen d) ++ d) ++ r /\ bytes_ok d /\ bytes_ok r.
Proof.
  unfold dec_data. intros Hok H.
  destruct (dec_uint w bs) as [[n r']| |] eqn:E; simpl in H; try discriminate.
  apply dec_uint_inv in E as (Hn & -> & Hr'); auto.
  apply read_bytes_inv in H as [Hl ->].
  apply bytes_ok_app in Hr' as [Hd Hr].
  replace n with (nlen d) in * by (unfold nlen; lia).
  rewrite <- app_assoc. auto.
Qed.

Lemma dec_data_nopanic w bs : dec_data w bs <> Panic.
Proof.
  unfold dec_data. destruct (dec_uint w bs) as [[n r]| |] eqn:E; simpl; try discriminate.
  - destruct (read_bytes_cases (N.to_nat n) r) as [(l & r' & -> & _)| ->]; discriminate.
  - exfalso. eapply dec_uint_nopanic. exact E.
Qed.

Lemma dec_string_app s rest : string_wf 255 s -> dec_string ((nlen s :: s) ++ rest) = Ok (s, rest).
Proof.
  intros [[Hl _] Hu]. unfold dec_string. simpl.
  rewrite read_bytes_app_n by (unfold nlen; lia). simpl. now rewrite Hu.
Qed.

Lemma enc_string_some s : nlen s <= 255 -> enc_string s = Some (nlen s :: s).
Proof. intros. unfold enc_string. destruct (N.ltb_spec (nlen s) 256); auto. lia. Qed.

Lemma dec_string_inv bs s r : bytes_ok bs -> dec_string bs = Ok (s, r) ->
  string_wf 255 s /\ bs = (nlen s :: s) ++ r /\ bytes_ok r.
Proof.
  unfold dec_string. intros Hok H.
  destruct bs as [|b bs]; simpl in H; try discriminate.
  destruct (read_bytes (N.to_nat b) bs) as [[l r']| |] eqn:E; simpl in H; try discriminate.
  destruct (utf8_valid l) eqn:Hu; try discriminate. injection H as <- <-.
  apply read_bytes_inv in E as [Hl ->].
  apply bytes_ok_cons in Hok as [Hb Hok]. apply bytes_ok_app in Hok as [Hl' Hr].
  unfold is_byte in Hb.
  replace b with (nlen l) in * by (unfold nlen; lia).
  repeat split; auto. lia.
Qed.

Lemma dec_string_nopanic bs : dec_string bs <> Panic.
Proof.
  unfold dec_string. destruct bs as [|b bs]; simpl; try discriminate.
  destruct (read_bytes_cases (N.to_nat b) bs) as [(l & r' & -> & _)| ->]; simpl; try discriminate.
  destruct (utf8_valid l); discriminate.
Qed.

Lemma dec_bool_app (b : bool) rest : dec_bool ((if b then 1 else 0) :: rest) = Ok (b, rest).
Proof. destruct b; reflexivity. Qed.

Lemma dec_bool_inv bs (b : bool) r : dec_bool bs = Ok (b, r) -> bs = (if b then 1 else 0) :: r.
Proof.
  unfold dec_bool. destruct bs as [|x bs]; simpl; try discriminate.
  destruct (N.eqb_spec x 1); [intros [= <- <-]; subst; auto|].
  destruct (N.eqb_spec x 0); [intros [= <- <-]; subst; auto|discriminate].
Qed.

Lemma dec_bool_nopanic bs : dec_bool bs <> Panic.
Proof.
  unfold dec_bool. destruct bs as [|x bs]; simpl; try discriminate.
  destruct (x =? 1); try discriminate. destruct (x =? 0); discriminate.
Qed.

Lemma dec_gas_app g rest : gas_wf g ->
  dec_gas (be_bytes 8 (match g with Some x => x | None => 0 end) ++ rest) = Ok (g, rest).
Proof.
  intros H. unfold dec_gas. destruct g as [x|].
  - destruct H as [H0 Hx]. rewrite dec_u64_app by exact Hx. cbn [bind].
    destruct (N.eqb_spec x 0); auto. lia.
  - rewrite dec_u64_app by (red; lia). reflexivity.
Qed.

Lemma dec_gas_inv bs g r : bytes_ok bs -> dec_gas bs = Ok (g, r) ->
  gas_wf g /\ bs = be_bytes 8 (match g with Some x => x | None => 0 end) ++ r /\ bytes_ok r.
Proof.
  unfold dec_gas. intros Hok H.
  destruct (dec_u64 bs) as [[n r']| |] eqn:E; cbn [bind] in H; try discriminate.
  apply dec_uint_inv in E as (Hn & -> & Hr'); auto.
  destruct (N.eqb_spec n 0); injection H as <- <-; subst; cbn [gas_wf]; auto.
  repeat split; auto. lia.
Qed.

Lemma dec_gas_nopanic bs : dec_gas bs <> Panic.
Proof.
  unfold dec_gas. destruct (dec_u64 bs) as [[n r]| |] eqn:E; simpl; try discriminate.
  - destruct (n =? 0); discriminate.
  - exfalso. eapply dec_uint_nopanic. exact E.
Qed.

(** ** Sequences *)
Lemma seq_round_trip {A} (e : encoder A) (d : decoder A) l :
  Forall (round_trips e d) l ->
  exists bs, enc_seq e l = Some bs /\ forall rest, dec_seq d (length l) (bs ++ rest) = Ok (l, rest).
Proof.
  induction 1 as [|x l (bx & Ex & Dx) _ (bl & El & Dl)]; simpl.
  - exists []. auto.
  - rewrite Ex, El. simpl. exists (bx ++ bl). split; auto.
    intros rest. rewrite <- app_assoc, Dx. simpl. now rewrite Dl.
Qed.

Lemma vec_round_trip {A} (e : encoder A) (d : decoder A) l :
  Forall (round_trips e d) l -> nlen l <= 65535 -> round_trips (enc_vec e) (dec_vec d) l.
Proof.
  intros H Hl. destruct (seq_round_trip e d l H) as (bs & E & D).
  unfold round_trips, enc_vec, dec_vec. unfold u16_max.
  destruct (N.leb_spec (nlen l) 65535); [|lia].
  rewrite E. cbn [obind]. eexists; split; [reflexivity|].
  intros rest. rewrite <- app_assoc, dec_u16_app by (red; lia). cbn [bind].
  unfold nlen. rewrite Nnat.Nat2N.id. apply D.
Qed.

Lemma dec_seq_cases {A} (d : decoder A) n bs :
  never_panics d ->
  (exists err, dec_seq d n bs = Err err)
  \/ (exists l pre r, dec_seq d n bs = Ok (l, r) /\ bs = pre ++ r).
Proof.
  intros Hd. revert bs. induction n; intros bs; simpl.
  - right. exists [], [], bs. auto.
  - destruct (Hd bs) as [(e & ->)|(x & p & r & -> & ->)]; simpl; eauto.
    destruct (IHn r) as [(e & ->)|(l & p' & r' & -> & ->)]; simpl; eauto.
    right. exists (x :: l), (p ++ p'), r'. now rewrite app_assoc.
Qed.

(** ** Messages *)

Lemma transaction_rt t : transaction_wf t -> round_trips enc_transaction dec_transaction t.
Proof.
  intros [Hv Ht Hf Hd Hc]. unfold round_trips, enc_transaction.
  unfold enc_u16, enc_uint, enc_array. cbn [obind].
  rewrite enc_string_some by apply Hf. cbn [obind].
  unfold enc_input.
  rewrite (enc_data_some 1 (tx_verifydata t)) by (destruct Hd; change (256 ^ N.of_nat 1) with 256; lia).
  cbn [obind].
  rewrite (enc_data_some 1 (tx_calldata t)) by (destruct Hc; change (256 ^ N.of_nat 1) with 256; lia).
  cbn [obind].
  eexists. split; [reflexivity|]. intros rest. rewrite <- !app_assoc.
  unfold dec_transaction.
  rewrite dec_u16_app by auto. cbn [bind].
  rewrite dec_array_app by exact Ht. cbn [bind].
  rewrite dec_string_app by auto. cbn [bind]. unfold dec_input.
  rewrite dec_data_app by (destruct Hd; change (256 ^ N.of_nat 1) with 256; lia). cbn [bind].
  rewrite dec_data_app by (destruct Hc; change (256 ^ N.of_nat 1) with 256; lia). cbn [bind].
  destruct t; reflexivity.
Qed.

Ltac inv_step H :=
  match type of H with
  | bind (dec_uint ?w ?b) _ = _ =>
      let E := fresh "E" in destruct (dec_uint w b) as [[? ?]| |] eqn:E; cbn [bind] in H; try discriminate;
      apply dec_uint_inv in E as (? & ? & ?); [|assumption]
  | bind (dec_u16 ?b) _ = _ =>
      let E := fresh "E" in destruct (dec_u16 b) as [[? ?]| |] eqn:E; cbn [bind] in H; try discriminate;
      apply dec_uint_inv in E as (? & ? & ?); [|assumption]
  | bind (dec_u32 ?b) _ = _ =>
      let E := fresh "E" in destruct (dec_u32 b) as [[? ?]| |] eqn:E; cbn [bind] in H; try discriminate;
      apply dec_uint_inv in E as (? & ? & ?); [|assumption]
  | bind (dec_u64 ?b) _ = _ =>
      let E := fresh "E" in destruct (dec_u64 b) as [[? ?]| |] eqn:E; cbn [bind] in H; try discriminate;
      apply dec_uint_inv in E as (? & ? & ?); [|assumption]
  | bind (dec_u128 ?b) _ = _ =>
      let E := fresh "E" in destruct (dec_u128 b) as [[? ?]| |] eqn:E; cbn [bind] in H; try discriminate;
      apply dec_uint_inv in E as (? & ? & ?); [|assumption]
  | bind (dec_array ?n ?b) _ = _ =>
      let E := fresh "E" in destruct (dec_array n b) as [[? ?]| |] eqn:E; cbn [bind] in H; try discriminate;
      apply read_bytes_inv in E as (? & ?);
      let K := fresh "K" in
      match goal with Hb : bytes_ok b, He : b = _ ++ _ |- _ =>
        pose proof Hb as K; rewrite He in K; apply bytes_ok_app in K as [? ?] end
  | bind (dec_string ?b) _ = _ =>
      let E := fresh "E" in destruct (dec_string b) as [[? ?]| |] eqn:E; cbn [bind] in H; try discriminate;
      apply dec_string_inv in E as (? & ? & ?); [|assumption]
  | bind (dec_input ?b) _ = _ =>
      let E := fresh "E" in destruct (dec_input b) as [[? ?]| |] eqn:E; cbn [bind] in H; try discriminate;
      apply dec_data_inv in E as (? & ? & ? & ?); [|assumption]
  | bind (dec_return ?b) _ = _ =>
      let E := fresh "E" in destruct (dec_return b) as [[? ?]| |] eqn:E; cbn [bind] in H; try discriminate;
      apply dec_data_inv in E as (? & ? & ? & ?); [|assumption]
  | bind (dec_gas ?b) _ = _ =>
      let E := fresh "E" in destruct (dec_gas b) as [[? ?]| |] eqn:E; cbn [bind] in H; try discriminate;
      apply dec_gas_inv in E as (? & ? & ?); [|assumption]
  | bind (dec_bool ?b) _ = _ =>
      let E := fresh "E" in destruct (dec_bool b) as [[? ?]| |] eqn:E; cbn [bind] in H; try discriminate;
      apply dec_bool_inv in E;
      let K := fresh "K" in
      match goal with Hb : bytes_ok b, He : b = _ :: _ |- _ =>
        pose proof Hb as K; rewrite He in K; apply bytes_ok_cons in K as [? ?] end
  end.

Lemma lt256_1 (d : bytes) : nlen d < 256 ^ N.of_nat 1 -> nlen d <= 255.
Proof. change (256 ^ N.of_nat 1) with 256. lia. Qed.

Lemma transaction_canon : canonical enc_transaction dec_transaction transaction_wf.
Proof.
  intros bs x rest Hok H. unfold dec_transaction in H.
  repeat inv_step H. injection H as <- <-. subst.
  match goal with H : string_wf _ _ |- _ => pose proof H as Hs; destruct H as [[? ?] ?] end.
  split.
  - constructor; cbn; auto; try (split; auto; try apply lt256_1; auto).
  - unfold enc_transaction. cbn [tx_version tx_target tx_func_name tx_verifydata tx_calldata].
    unfold enc_u16, enc_uint, enc_array, enc_input. cbn [obind].
    rewrite enc_string_some by auto. cbn [obind]. rewrite !enc_data_some by auto. cbn [obind].
    eexists. split; [reflexivity|]. rewrite <- !app_assoc. reflexivity.
Qed.

Lemma envelope_rt e : envelope_wf e -> round_trips enc_envelope dec_envelope e.
Proof.
  intros [Hp Ha Hn Hl Hf]. unfold round_trips, enc_envelope.
  unfold enc_gas, enc_u64, enc_u128, enc_uint, enc_array. cbn [obind].
  eexists. split; [reflexivity|]. intros rest. rewrite <- !app_assoc.
  unfold dec_envelope.
  rewrite dec_array_app by exact Hp. cbn [bind].
  rewrite dec_u64_app by auto. cbn [bind].
  rewrite dec_u128_app by auto. cbn [bind].
  rewrite dec_gas_app by auto. cbn [bind].
  rewrite dec_u64_app by auto. cbn [bind]. destruct e; reflexivity.
Qed.

Lemma envelope_canon : canonical enc_envelope dec_envelope envelope_wf.
Proof.
  intros bs x rest Hok H. unfold dec_envelope in H.
  repeat inv_step H. injection H as <- <-. subst.
  split.
  - constructor; cbn; auto. split; auto.
  - unfold enc_envelope, enc_gas, enc_u64, enc_u128, enc_uint, enc_array. cbn [obind].
    cbn [env_principal env_amount env_nonce env_gas_limit env_gas_fee].
    eexists. split; [reflexivity|]. rewrite <- !app_assoc. reflexivity.
Qed.

Lemma context_rt c : context_wf c -> round_trips enc_context dec_context c.
Proof.
  intros [Hi Hl Hs]. unfold round_trips, enc_context.
  unfold enc_u64, enc_uint, enc_array. cbn [obind].
  eexists. split; [reflexivity|]. intros rest. rewrite <- !app_assoc.
  unfold dec_context.
  rewrite dec_array_app by exact Hi. cbn [bind].
  rewrite dec_u64_app by auto. cbn [bind].
  rewrite dec_array_app by exact Hs. cbn [bind]. destruct c; reflexivity.
Qed.

Lemma context_canon : canonical enc_context dec_context context_wf.
Proof.
  intros bs x rest Hok H. unfold dec_context in H.
  repeat inv_step H. injection H as <- <-. subst.
  split.
  - constructor; cbn; auto; split; auto.
  - unfold enc_context, enc_u64, enc_uint, enc_array. cbn [obind ctx_tx_id ctx_layer ctx_state].
    eexists. split; [reflexivity|]. rewrite <- !app_assoc. reflexivity.
Qed.

Lemma spawn_rt s : spawn_wf s -> round_trips enc_spawn dec_spawn s.
Proof.
  intros [Hv Ht Hn Hc Hd]. unfold round_trips, enc_spawn.
  unfold enc_u16, enc_uint, enc_array. cbn [obind].
  rewrite (enc_string_some (sp_name s)) by apply Hn. cbn [obind].
  rewrite (enc_string_some (sp_ctor s)) by apply Hc. cbn [obind].
  unfold enc_input.
  rewrite enc_data_some by (destruct Hd; change (256 ^ N.of_nat 1) with 256; lia). cbn [obind].
  eexists. split; [reflexivity|]. intros rest. rewrite <- !app_assoc.
  unfold dec_spawn.
  rewrite dec_u16_app by auto. cbn [bind].
  rewrite dec_array_app by exact Ht. cbn [bind].
  rewrite dec_string_app by auto. cbn [bind].
  rewrite dec_string_app by auto. cbn [bind]. unfold dec_input.
  rewrite dec_data_app by (destruct Hd; change (256 ^ N.of_nat 1) with 256; lia). cbn [bind].
  destruct s; reflexivity.
Qed.

Lemma spawn_canon : canonical enc_spawn dec_spawn spawn_wf.
Proof.
  intros bs x rest Hok H. unfold dec_spawn in H.
  repeat inv_step H. injection H as <- <-. subst.
  repeat match goal with H : string_wf _ ?s |- _ =>
    lazymatch goal with _ : nlen s <= 255 |- _ => fail | _ =>
    pose proof H as [[? ?] ?] end end.
  split.
  - constructor; cbn; auto; try (split; auto; try apply lt256_1; auto).
  - unfold enc_spawn. cbn [sp_version sp_template sp_name sp_ctor sp_calldata].
    unfold enc_u16, enc_uint, enc_array, enc_input. cbn [obind].
    rewrite !enc_string_some by auto. cbn [obind]. rewrite !enc_data_some by auto. cbn [obind].
    eexists. split; [reflexivity|]. rewrite <- !app_assoc. reflexivity.
Qed.

(** ** No panic *)
(** Every decoder built from the primitives returns [Err] or a suffix. *)
Lemma np_of {A} (d : decoder A) (bs : bytes) :
  d bs <> Panic ->
  (forall x r, d bs = Ok (x, r) -> exists p, bs = p ++ r) ->
  (exists e, d bs = Err e) \/ (exists x pre rest, d bs = Ok (x, rest) /\ bs = pre ++ rest).
Proof.
  intros Hp Hs. destruct (d bs) as [[x r]|e|] eqn:E.
  - right. destruct (Hs x r eq_refl) as [p ->]. eauto.
  - left. eauto.
  - congruence.
Qed.

Lemma np_read_bytes n : never_panics (read_bytes n).
Proof.
  intros bs. destruct (read_bytes_cases n bs) as [(l & r & -> & -> & _)| ->]; eauto 6.
Qed.

Lemma np_bind {A B} (d : decoder A) (k : A -> decoder B) :
  never_panics d -> (forall a, never_panics (k a)) ->
  never_panics (fun bs => let* (a, r) := d bs in k a r).
Proof.
  intros Hd Hk bs. destruct (Hd bs) as [(e & ->)|(x & p & r & -> & ->)]; cbn [bind]; eauto.
  destruct (Hk x r) as [(e & ->)|(y & p' & r' & -> & ->)]; eauto.
  right. exists y, (p ++ p'), r'. now rewrite app_assoc.
Qed.

Lemma np_ret {A} (a : A) : never_panics (fun bs => Ok (a, bs)).
Proof. intros bs. right. exists a, [], bs. auto. Qed.

Lemma np_err {A} e : never_panics (fun _ => @Err parse_error (A * bytes) e).
Proof. intros bs. eauto. Qed.

Lemma np_read_byte : never_panics read_byte.
Proof. intros [|b bs]; simpl; eauto. right. exists b, [b], bs. auto. Qed.

Lemma np_uint w : never_panics (dec_uint w).
Proof.
  apply (np_bind (read_bytes w) (fun l r => Ok (be_value l, r))).
  - apply np_read_bytes.
  - intros. apply np_ret.
Qed.

Lemma np_data w : never_panics (dec_data w).
Proof.
  apply (np_bind (dec_uint w) (fun n => read_bytes (N.to_nat n))).
  - apply np_uint.
  - intros. apply np_read_bytes.
Qed.

Lemma np_string : never_panics dec_string.
Proof.
  apply (np_bind read_byte (fun n r => let* (s, r') := read_bytes (N.to_nat n) r in
     if utf8_valid s then Ok (s, r') else Err BadString)); [apply np_read_byte|]. intros n.
  apply (np_bind (read_bytes (N.to_nat n)) (fun s r' => if utf8_valid s then Ok (s, r') else Err BadString)).
  - apply np_read_bytes.
  - intros s. destruct (utf8_valid s); [apply np_ret|apply np_err].
Qed.

Lemma np_gas : never_panics dec_gas.
Proof.
  apply (np_bind dec_u64 (fun x r => if x =? 0 then Ok (None, r) else Ok (Some x, r))); [apply np_uint|].
  intros x. destruct (x =? 0); apply np_ret.
Qed.

Lemma np_bool : never_panics dec_bool.
Proof.
  apply (np_bind read_byte (fun b r => if b =? 1 then Ok (true, r)
    else if b =? 0 then Ok (false, r) else Err (BadByte b))); [apply np_read_byte|].
  intros b. destruct (b =? 1); [apply np_ret|]. destruct (b =? 0); [apply np_ret|apply np_err].
Qed.

Lemma np_transaction : never_panics dec_transaction.
Proof.
  unfold dec_transaction.
  refine (np_bind dec_u16 _ (np_uint 2) _). intros a.
  refine (np_bind (dec_array ADDRESS_LEN) _ (np_read_bytes _) _). intros b.
  refine (np_bind dec_string _ np_string _). intros c.
  refine (np_bind dec_input _ (np_data 1) _). intros d.
  refine (np_bind dec_input (fun e r => Ok (mkTransaction a b c d e, r)) (np_data 1) _). intros e.
  apply np_ret.
Qed.

Lemma np_spawn : never_panics dec_spawn.
Proof.
  unfold dec_spawn.
  refine (np_bind dec_u16 _ (np_uint 2) _). intros a.
  refine (np_bind (dec_array ADDRESS_LEN) _ (np_read_bytes _) _). intros b.
  refine (np_bind dec_string _ np_string _). intros c.
  refine (np_bind dec_string _ np_string _). intros d.
  refine (np_bind dec_input (fun e r => Ok (mkSpawn a b c d e, r)) (np_data 1) _). intros e.
  apply np_ret.
Qed.

Lemma np_envelope : never_panics dec_envelope.
Proof.
  unfold dec_envelope.
  refine (np_bind (dec_array ADDRESS_LEN) _ (np_read_bytes _) _). intros a.
  refine (np_bind dec_u64 _ (np_uint 8) _). intros b.
  refine (np_bind dec_u128 _ (np_uint 16) _). intros c.
  refine (np_bind dec_gas _ np_gas _). intros d.
  refine (np_bind dec_u64 (fun e r => Ok (mkEnvelope a b c d e, r)) (np_uint 8) _). intros e.
  apply np_ret.
Qed.

Lemma np_context : never_panics dec_context.
Proof.
  unfold dec_context.
  refine (np_bind (dec_array TXID_LEN) _ (np_read_bytes _) _). intros a.
  refine (np_bind dec_u64 _ (np_uint 8) _). intros b.
  refine (np_bind (dec_array STATE_LEN) (fun e r => Ok (mkContext a b e, r)) (np_read_bytes _) _). intros e.
  apply np_ret.
Qed.

(** ** Truncation *)
Lemma truncation {A} (e : encoder A) (d : decoder A) (wf : A -> Prop) :
  (forall x, wf x -> round_trips e d x) -> canonical e d wf -> never_panics d ->
  forall x, wf x -> (forall bs, e x = Some bs -> bytes_ok bs) -> rejects_truncation e d x.
Proof.
  intros Hrt Hc Hn x Hx Hok bs pre suf He Hbs Hne.
  destruct (Hn pre) as [H|(y & p & r & Hd & Hp)]; auto. exfalso.
  specialize (Hok bs He). rewrite Hbs in Hok. apply bytes_ok_app in Hok as [Hokp _].
  destruct (Hc _ _ _ Hokp Hd) as (Hy & q & Hq & Hpre).
  destruct (Hrt y Hy) as (q' & Hq' & Hdq). rewrite Hq in Hq'. injection Hq' as <-.
  destruct (Hrt x Hx) as (b' & Hb' & Hdb). rewrite He in Hb'. injection Hb' as <-.
  specialize (Hdb []). rewrite app_nil_r in Hdb. rewrite Hbs, Hpre in Hdb.
  rewrite <- app_assoc in Hdb. rewrite Hdq in Hdb. injection Hdb as _ Hnil.
  apply app_eq_nil in Hnil as [_ ->]. congruence.
Qed.

Lemma enc_transaction_ok t bs : transaction_wf t -> enc_transaction t = Some bs -> bytes_ok bs.
Proof.
  intros [Hv Ht Hf Hd Hc] H. unfold enc_transaction in H.
  unfold enc_u16, enc_uint, enc_array, enc_input in H. cbn [obind] in H.
  rewrite enc_string_some in H by apply Hf. cbn [obind] in H.
  rewrite (enc_data_some 1 (tx_verifydata t)) in H by (destruct Hd; change (256 ^ N.of_nat 1) with 256; lia). cbn [obind] in H.
  rewrite (enc_data_some 1 (tx_calldata t)) in H by (destruct Hc; change (256 ^ N.of_nat 1) with 256; lia). cbn [obind] in H.
  apply Some_inj in H; subst bs. destruct Ht, Hf as [[? ?] ?], Hd, Hc.
  rewrite !bytes_ok_app, bytes_ok_cons. repeat split; auto using be_bytes_ok. red. lia.
Qed.

Lemma enc_spawn_ok t bs : spawn_wf t -> enc_spawn t = Some bs -> bytes_ok bs.
Proof.
  intros [Hv Ht Hn Hc Hd] H. unfold enc_spawn in H.
  unfold enc_u16, enc_uint, enc_array, enc_input in H. cbn [obind] in H.
  rewrite enc_string_some in H by apply Hn. cbn [obind] in H.
  rewrite enc_string_some in H by apply Hc. cbn [obind] in H.
  rewrite !enc_data_some in H by (destruct Hd; change (256 ^ N.of_nat 1) with 256; lia). cbn [obind] in H.
  apply Some_inj in H; subst bs. destruct Ht, Hn as [[? ?] ?], Hc as [[? ?] ?], Hd.
  rewrite !bytes_ok_app, !bytes_ok_cons. repeat split; auto using be_bytes_ok; red; lia.
Qed.

Lemma enc_envelope_ok t bs : envelope_wf t -> enc_envelope t = Some bs -> bytes_ok bs.
Proof.
  intros [[Hl1 Hb1] _ _ _ _] H.
  unfold enc_envelope, enc_gas, enc_u64, enc_u128, enc_uint, enc_array in H. cbn [obind] in H.
  apply Some_inj in H; subst bs.
  rewrite !bytes_ok_app. repeat split; auto using be_bytes_ok.
Qed.

Lemma enc_context_ok t bs : context_wf t -> enc_context t = Some bs -> bytes_ok bs.
Proof.
  intros [[Hl1 Hb1] _ [Hl2 Hb2]] H.
  unfold enc_context, enc_u64, enc_uint, enc_array in H. cbn [obind] in H.
  apply Some_inj in H; subst bs.
  rewrite !bytes_ok_app. repeat split; auto using be_bytes_ok.
Qed.

(** ** Wire layout *)
Lemma be_bytes_nth w n i : (i < w)%nat ->
  nth_error (be_bytes w n) i = Some ((n / 256 ^ N.of_nat (w - 1 - i)) mod 256).
Proof.
  revert i. induction w; intros i Hi; [lia|]. cbn [be_bytes].
  destruct i; cbn [nth_error].
  - now replace (S w - 1 - 0)%nat with w by lia.
  - rewrite IHw by lia. now replace (S w - 1 - S i)%nat with (w - 1 - i)%nat by lia.
Qed.

Lemma field_at_app pre post w n off :
  length pre = off -> field_at (pre ++ be_bytes w n ++ post) off w n.
Proof.
  intros <- i Hi. rewrite nth_error_app2 by lia.
  replace (length pre + i - length pre)%nat with i by lia.
  rewrite nth_error_app1 by (rewrite be_bytes_length; lia). now apply be_bytes_nth.
Qed.

Lemma bytes_at_app pre post b off : length pre = off -> bytes_at (pre ++ b ++ post) off b.
Proof.
  intros <- i Hi. rewrite nth_error_app2 by lia.
  replace (length pre + i - length pre)%nat with i by lia.
  now rewrite nth_error_app1.
Qed.

Lemma bytes_at_end pre b off : length pre = off -> bytes_at (pre ++ b) off b.
Proof. intros H. pose proof (bytes_at_app pre [] b off H) as K. now rewrite app_nil_r in K. Qed.

Lemma field_at_end pre w n off : length pre = off -> field_at (pre ++ be_bytes w n) off w n.
Proof. intros H. pose proof (field_at_app pre [] w n off H) as K. now rewrite app_nil_r in K. Qed.

Definition gas_num (g : gas) : N := match g with Some x => x | None => 0 end.

Lemma envelope_format e bs : envelope_wf e -> enc_envelope e = Some bs ->
  length bs = 60%nat /\ bytes_at bs 0 (env_principal e) /\ field_at bs 20 8 (env_amount e)
  /\ field_at bs 28 16 (env_nonce e) /\ field_at bs 44 8 (gas_num (env_gas_limit e))
  /\ field_at bs 52 8 (env_gas_fee e).
Proof.
  intros [[Hl Hb] _ _ _ _] H.
  unfold enc_envelope, enc_gas, enc_u64, enc_u128, enc_uint, enc_array in H. cbn [obind] in H.
  apply Some_inj in H; subst bs. fold (gas_num (env_gas_limit e)).
  repeat split.
  - rewrite !app_length, !be_bytes_length. lia.
  - apply (bytes_at_app []). reflexivity.
  - now apply field_at_app.
  - rewrite app_assoc. apply field_at_app. rewrite app_length, be_bytes_length. lia.
  - rewrite 2!app_assoc. apply field_at_app. rewrite !app_length, !be_bytes_length. lia.
  - rewrite 3!app_assoc. apply field_at_end. rewrite !app_length, !be_bytes_length. lia.
Qed.

Lemma context_format c bs : context_wf c -> enc_context c = Some bs ->
  length bs = 72%nat /\ bytes_at bs 0 (ctx_tx_id c) /\ field_at bs 32 8 (ctx_layer c)
  /\ bytes_at bs 40 (ctx_state c).
Proof.
  intros [[Hl Hb] _ [Hl2 Hb2]] H.
  unfold enc_context, enc_u64, enc_uint, enc_array in H. cbn [obind] in H.
  apply Some_inj in H; subst bs.
  repeat split.
  - rewrite !app_length, !be_bytes_length. lia.
  - apply (bytes_at_app []). reflexivity.
  - now apply field_at_app.
  - rewrite app_assoc. apply bytes_at_end. rewrite app_length, be_bytes_length. lia.
Qed.

Lemma transaction_format t bs : transaction_wf t -> enc_transaction t = Some bs ->
  let f := length (tx_func_name t) in
  let v := length (tx_verifydata t) in
  let c := length (tx_calldata t) in
  length bs = (25 + f + v + c)%nat
  /\ field_at bs 0 2 (tx_version t) /\ bytes_at bs 2 (tx_target t)
  /\ field_at bs 22 1 (N.of_nat f) /\ bytes_at bs 23 (tx_func_name t)
  /\ field_at bs (23 + f) 1 (N.of_nat v) /\ bytes_at bs (24 + f) (tx_verifydata t)
  /\ field_at bs (24 + f + v) 1 (N.of_nat c) /\ bytes_at bs (25 + f + v) (tx_calldata t).
Proof.
  intros [Hv [Ht Htb] Hf Hd Hc] H. unfold enc_transaction in H.
  unfold enc_u16, enc_uint, enc_array, enc_input in H. cbn [obind] in H.
  rewrite enc_string_some in H by apply Hf. cbn [obind] in H.
  rewrite (enc_data_some 1 (tx_verifydata t)) in H by (destruct Hd; change (256 ^ N.of_nat 1) with 256; lia). cbn [obind] in H.
  rewrite (enc_data_some 1 (tx_calldata t)) in H by (destruct Hc; change (256 ^ N.of_nat 1) with 256; lia). cbn [obind] in H.
  apply Some_inj in H; subst bs. cbv zeta.
  replace (nlen (tx_func_name t) :: tx_func_name t)
    with (be_bytes 1 (nlen (tx_func_name t)) ++ tx_func_name t).
  2:{ cbn [be_bytes app]. f_equal. change (256 ^ N.of_nat 0) with 1. rewrite N.div_1_r.
      apply N.mod_small. destruct Hf as [[Hf _] _]. lia. }
  unfold nlen.
  repeat split.
  - repeat rewrite app_length || rewrite be_bytes_length. rewrite Ht. lia.
  - apply (field_at_app []). reflexivity.
  - apply bytes_at_app. now rewrite be_bytes_length.
  - rewrite <- !app_assoc, app_assoc. apply field_at_app. rewrite app_length, be_bytes_length. lia.
  - rewrite <- !app_assoc, 2!app_assoc. apply bytes_at_app. rewrite !app_length, !be_bytes_length. lia.
  - rewrite <- !app_assoc, 3!app_assoc. apply field_at_app. rewrite !app_length, !be_bytes_length. lia.
  - rewrite <- !app_assoc, 4!app_assoc. apply bytes_at_app. rewrite !app_length, !be_bytes_length. lia.
  - rewrite <- !app_assoc, 5!app_assoc. apply field_at_app. rewrite !app_length, !be_bytes_length. lia.
  - rewrite <- !app_assoc, 6!app_assoc. apply bytes_at_end. rewrite !app_length, !be_bytes_length. lia.
Qed.
