(** Properties C67 (text), C68 (sequences), C69 (receipt flags) and C70 (repeated sections). *)
From Coq Require Import List NArith Bool Lia.
From Verif Require Import Base CodecModel CodecSpec CodecProofs ReceiptModel SectionModel SectionSpec SectionProofs
  PrimSpec PrimProofs.
Import ListNotations.
Open Scope N_scope.

(* ------------------------------------------------------------------------- *)
(** * C67: text fields hold exactly UTF-8 *)

(** Bytes are accepted as the content of a text field exactly when they are the UTF-8 form of
    a sequence of Unicode scalar values; otherwise the decoder reports a bad string. *)
Theorem C67_text_is_utf8 : forall s rest, bytes_ok s -> nlen s <= 255 ->
  (dec_string (nlen s :: s ++ rest) = Ok (s, rest) /\
   exists cs, Forall scalar cs /\ s = flat_map utf8_bytes cs) \/
  (dec_string (nlen s :: s ++ rest) = Err BadString /\
   ~ exists cs, Forall scalar cs /\ s = flat_map utf8_bytes cs).
Proof.
  intros s rest Hb Hl. unfold dec_string. cbn [read_byte bind].
  rewrite read_bytes_app_n by (unfold nlen; lia). cbn [bind].
  pose proof (utf8_exact s) as U. destruct (utf8_valid s); [left|right]; split; auto; intuition discriminate.
Qed.

(** Every text of at most 255 bytes round trips. *)
Theorem C67_text_round_trip : forall cs, Forall scalar cs -> nlen (flat_map utf8_bytes cs) <= 255 ->
  exists bs, enc_string (flat_map utf8_bytes cs) = Some bs /\
    forall rest, dec_string (bs ++ rest) = Ok (flat_map utf8_bytes cs, rest).
Proof.
  intros cs F L. unfold enc_string. set (s := flat_map utf8_bytes cs) in *.
  assert (X : nlen s <? 256 = true) by (apply N.ltb_lt; lia). rewrite X.
  exists (nlen s :: s). split; auto. intros rest. unfold dec_string. cbn [app read_byte bind].
  rewrite read_bytes_app_n by (unfold nlen; lia). cbn [bind].
  assert (V : utf8_valid s = true) by (apply utf8_exact; eauto). now rewrite V.
Qed.

(** "aé€𐍈" is accepted; the overlong form of "/" and a lone surrogate are not. *)
Example C67_satisfiable :
  flat_map utf8_bytes [97; 233; 8364; 66376] = [97; 195; 169; 226; 130; 172; 240; 144; 141; 136]
  /\ Forall scalar [97; 233; 8364; 66376]
  /\ dec_string [2; 192; 175] = Err BadString /\ dec_string [3; 237; 160; 128] = Err BadString
  /\ dec_string [3; 224; 128; 175] = Err BadString.
Proof.
  split; [reflexivity|]. split; [repeat (constructor; [unfold scalar; lia|]); constructor|]. repeat split; reflexivity.
Qed.

(* ------------------------------------------------------------------------- *)
(** * C68: sequences *)

(** A sequence of up to 65535 elements round trips when its elements do. *)
Theorem C68_sequence_round_trip : forall A (e : encoder A) (d : decoder A) l,
  Forall (fun x => exists bs, e x = Some bs /\ forall rest, d (bs ++ rest) = Ok (x, rest)) l ->
  nlen l <= 65535 ->
  exists bs, enc_vec e l = Some bs /\ forall rest, dec_vec d (bs ++ rest) = Ok (l, rest).
Proof. intros A e d l H Hl. exact (vec_round_trip e d l H Hl). Qed.

(** A longer one is refused by the encoder. *)
Theorem C68_sequence_limit : forall A (e : encoder A) l, 65535 < nlen l -> enc_vec e l = None.
Proof.
  intros A e l H. unfold enc_vec, u16_max. destruct (N.leb_spec (nlen l) 65535); auto. lia.
Qed.

(** Decoding a sequence accepts only the bytes its encoder writes. *)
Theorem C68_sequence_canonical : forall A (e : encoder A) (d : decoder A),
  (forall bs x r, bytes_ok bs -> d bs = Ok (x, r) -> exists a, e x = Some a /\ bs = a ++ r) ->
  forall bs l r, bytes_ok bs -> dec_vec d bs = Ok (l, r) ->
  exists a, enc_vec e l = Some a /\ bs = a ++ r.
Proof.
  intros A e d C bs l r Hb H. unfold dec_vec in H.
  destruct (dec_u16 bs) as [[n r0]| |] eqn:E; cbn [bind] in H; try discriminate.
  unfold dec_u16 in E. apply dec_uint_inv in E; auto. destruct E as (Hn & -> & Hr).
  destruct (seq_canon e d C _ _ _ _ Hr H) as (L & a & Ea & ->).
  assert (Nn : nlen l = n) by (unfold nlen; lia).
  unfold enc_vec, u16_max. unfold uint_wf in Hn. change (2 ^ 16) with 65536 in Hn.
  destruct (N.leb_spec (nlen l) 65535).
  - rewrite Ea. cbn [obind]. eexists; split; [reflexivity|]. rewrite Nn. now rewrite app_assoc.
  - lia.
Qed.

Example C68_satisfiable : exists bs, enc_vec enc_u16 [1; 515; 65535] = Some bs /\
  dec_vec dec_u16 (bs ++ [9]) = Ok ([1; 515; 65535], [9]) /\ bs = [0; 3; 0; 1; 2; 3; 255; 255].
Proof. eexists. split; [reflexivity|]. split; reflexivity. Qed.

(* ------------------------------------------------------------------------- *)
(** * C69: the success flag of a receipt *)

Definition receipt_success (r : receipt) : bool :=
  match r with RDeploy d => dr_success d | RSpawn s => sr_success s | RCall c => cr_success c end.

Lemma u16_bytes bs v r : dec_u16 bs = Ok (v, r) -> exists b1 b2, bs = b1 :: b2 :: r.
Proof.
  unfold dec_u16, dec_uint. destruct bs as [|b1 [|b2 bs]]; cbn [read_bytes read_byte bind]; try discriminate.
  intros H. injection H as _ <-. eauto.
Qed.

(** A receipt that decodes has flag byte (the fourth) 1 if it reports success and 0 if it
    reports failure; no other byte is read as a flag. *)
Theorem C69_success_flag : forall bs r rest, dec_receipt bs = Ok (r, rest) ->
  nth_error bs 3 = Some (if receipt_success r then 1 else 0).
Proof.
  intros bs r rest H. unfold dec_receipt in H. destruct bs as [|b0 bs]; [discriminate|].
  destruct (b0 =? TY_DEPLOY) eqn:T1; [|destruct (b0 =? TY_SPAWN) eqn:T2; [|destruct (b0 =? TY_CALL) eqn:T3; [|discriminate]]].
  - destruct (dec_deploy_receipt (b0 :: bs)) as [[d r']| |] eqn:E; cbn [bind] in H; try discriminate.
    injection H as <- <-. cbn [receipt_success]. unfold dec_deploy_receipt in E. cbn [read_byte bind] in E.
    rewrite T1 in E. cbn [negb] in E.
    destruct (dec_u16 bs) as [[v r1]| |] eqn:U; cbn [bind] in E; try discriminate.
    apply u16_bytes in U. destruct U as (b1 & b2 & ->).
    destruct (negb (v =? 0)); [discriminate|].
    destruct (dec_bool r1) as [[s r2]| |] eqn:B; cbn [bind] in E; try discriminate.
    apply dec_bool_inv in B. subst r1. cbn [nth_error]. f_equal. destruct s.
    + destruct (dec_array ADDRESS_LEN r2) as [[? ?]| |]; cbn [bind] in E; try discriminate.
      destruct (dec_gas _) as [[? ?]| |]; cbn [bind] in E; try discriminate.
      destruct (dec_logs _) as [[? ?]| |]; cbn [bind] in E; try discriminate.
      injection E as <- <-. reflexivity.
    + destruct (dec_failure r2) as [[? ?]| |]; cbn [bind] in E; try discriminate.
      injection E as <- <-. reflexivity.
  - destruct (dec_spawn_receipt (b0 :: bs)) as [[d r']| |] eqn:E; cbn [bind] in H; try discriminate.
    injection H as <- <-. cbn [receipt_success]. unfold dec_spawn_receipt in E. cbn [read_byte bind] in E.
    rewrite T2 in E. cbn [negb] in E.
    destruct (dec_u16 bs) as [[v r1]| |] eqn:U; cbn [bind] in E; try discriminate.
    apply u16_bytes in U. destruct U as (b1 & b2 & ->).
    destruct (negb (v =? 0)); [discriminate|].
    destruct (dec_bool r1) as [[s r2]| |] eqn:B; cbn [bind] in E; try discriminate.
    apply dec_bool_inv in B. subst r1. cbn [nth_error]. f_equal. destruct s.
    + destruct (dec_array ADDRESS_LEN r2) as [[? ?]| |]; cbn [bind] in E; try discriminate.
      destruct (dec_array STATE_LEN _) as [[? ?]| |]; cbn [bind] in E; try discriminate.
      destruct (dec_return _) as [[? ?]| |]; cbn [bind] in E; try discriminate.
      destruct (dec_gas _) as [[? ?]| |]; cbn [bind] in E; try discriminate.
      destruct (dec_touched _) as [[? ?]| |]; cbn [bind] in E; try discriminate.
      destruct (dec_logs _) as [[? ?]| |]; cbn [bind] in E; try discriminate.
      injection E as <- <-. reflexivity.
    + destruct (unwrapped dec_failure r2) as [[? ?]| |]; cbn [bind] in E; try discriminate.
      injection E as <- <-. reflexivity.
  - destruct (dec_call_receipt (b0 :: bs)) as [[d r']| |] eqn:E; cbn [bind] in H; try discriminate.
    injection H as <- <-. cbn [receipt_success]. unfold dec_call_receipt in E. cbn [read_byte bind] in E.
    rewrite T3 in E. cbn [negb] in E.
    destruct (dec_u16 bs) as [[v r1]| |] eqn:U; cbn [bind] in E; try discriminate.
    apply u16_bytes in U. destruct U as (b1 & b2 & ->).
    destruct (negb (v =? 0)); [discriminate|].
    destruct (dec_bool r1) as [[s r2]| |] eqn:B; cbn [bind] in E; try discriminate.
    apply dec_bool_inv in B. subst r1. cbn [nth_error]. f_equal. destruct s.
    + destruct (dec_array STATE_LEN r2) as [[? ?]| |]; cbn [bind] in E; try discriminate.
      destruct (dec_return _) as [[? ?]| |]; cbn [bind] in E; try discriminate.
      destruct (dec_gas _) as [[? ?]| |]; cbn [bind] in E; try discriminate.
      destruct (dec_touched _) as [[? ?]| |]; cbn [bind] in E; try discriminate.
      destruct (dec_logs _) as [[? ?]| |]; cbn [bind] in E; try discriminate.
      injection E as <- <-. reflexivity.
    + destruct (dec_failure r2) as [[? ?]| |]; cbn [bind] in E; try discriminate.
      injection E as <- <-. reflexivity.
Qed.

Example C69_satisfiable :
  let ok flag := [0; 0; 0; flag] ++ repeat 7 20 ++ repeat 0 8 ++ [0] in
  exists r, dec_receipt (ok 1) = Ok (r, []) /\ receipt_success r = true /\
    dec_receipt (ok 2) = Err (BadByte 2).
Proof. eexists. split; [vm_compute; reflexivity|]. split; reflexivity. Qed.

(* ------------------------------------------------------------------------- *)
(** * C70: repeated sections *)

(** A message may frame the same kind of section several times.  Decoding keeps one section
    of each kind: the last one framed. *)
Theorem C70_last_section_wins : forall l bufs bs,
  Forall (fun s => section_wf s /\ section_size s < 4294967295) l ->
  Forall2 (fun s kb => fst kb = section_kind_of s /\ enc_section s = Some (snd kb)) l bufs ->
  finish bufs = Some bs ->
  forall rest, exists out, dec_sections None (bs ++ rest) = Ok (out, rest) /\
    NoDup (map section_kind_of out) /\ forall k, get_section k out = last_of_kind k l.
Proof.
  intros l bufs bs Hw F H rest. unfold finish, u16_max in H.
  destruct (N.ltb_spec (nlen bufs) 65535) as [Hl|]; [|discriminate].
  destruct (enc_seq enc_buf bufs) as [b|] eqn:E; [|discriminate]. cbn [obind] in H.
  apply Some_inj in H. subst bs.
  destruct (dec_loop_repeats l bufs b [] rest F Hw E) as (out & O1 & O2 & O3); [constructor|].
  exists out. unfold dec_sections. rewrite <- app_assoc.
  rewrite dec_u16_app by (red; lia). cbn [bind].
  unfold nlen. rewrite Nnat.Nat2N.id, <- (F2_length _ _ _ F).
  split; [exact O1|]. split; [exact O2|]. intros k. rewrite O3. destruct (last_of_kind k l); auto.
Qed.

Example C70_satisfiable :
  let l := [SHeader (mkHeader 1 [65] []); SCtors [[97]]; SHeader (mkHeader 2 [66] [])] in
  exists bufs bs out, finish bufs = Some bs /\
    Forall2 (fun s kb => fst kb = section_kind_of s /\ enc_section s = Some (snd kb)) l bufs /\
    dec_sections None bs = Ok (out, []) /\ length out = 2%nat /\
    get_section KHeader out = Some (SHeader (mkHeader 2 [66] [])).
Proof.
  exists [(KHeader, [0; 0; 0; 1; 1; 65; 0]); (KCtors, [1; 1; 97]); (KHeader, [0; 0; 0; 2; 1; 66; 0])].
  eexists _, _. split; [vm_compute; reflexivity|]. split.
  - repeat (constructor; [split; reflexivity|]). constructor.
  - split; [vm_compute; reflexivity|]. split; reflexivity.
Qed.

Print Assumptions C67_text_is_utf8.
Print Assumptions C67_text_round_trip.
Print Assumptions C68_sequence_round_trip.
Print Assumptions C68_sequence_limit.
Print Assumptions C68_sequence_canonical.
Print Assumptions C69_success_flag.
Print Assumptions C70_last_section_wins.
