(** Property C120: sections one by one. *)
From Coq Require Import List NArith Bool Lia Permutation Wf_nat ZifyBool ZifyNat ZifyN.
From Verif Require Import Base CodecModel CodecSpec CodecProofs ReceiptModel LayoutModel SectionModel SectionSpec SectionProofs SectionProps StepModel StepSpec.
From Verif Require MacroModel MacroProofs MacroProps.
Import ListNotations.
Open Scope N_scope.

Lemma walk_app a b d : walk (a ++ b) d = let* (xs, d) := walk a d in let* (ys, d) := walk b d in Ok (xs ++ ys, d).
Proof.
  revert d. induction a as [|o a IH]; intros d; cbn [walk app bind]; [destruct (walk b d) as [[ys e]|?|]; reflexivity|].
  destruct (do o d) as [[x e]|?|]; cbn [bind]; [|reflexivity..]. rewrite IH.
  destruct (walk a e) as [[xs f]|?|]; cbn [bind]; [|reflexivity..]. destruct (walk b f) as [[ys h]|?|]; reflexivity.
Qed.

(** One section. *)
Lemma one_section s b rest n c (t : bool) : section_wf s -> section_size s < 4294967295 -> enc_section s = Some b -> n < c ->
  walk [Next; if t then Take else Leave] (mkSdec None n c ((be_bytes 2 (section_kind_code (section_kind_of s)) ++ be_bytes 4 (nlen b)) ++ b ++ rest)) =
  Ok ([Announced (section_kind_of s) (section_size s); if t then Taken s else Left], mkSdec None (n + 1) c rest).
Proof.
  intros Ws Zs Eb L. destruct (section_rt s Ws Zs) as (b' & Eb' & Sz & D). rewrite Eb in Eb'. apply Some_inj in Eb'. subst b'.
  cbn [walk do]. unfold next_preview, is_eof. cbn [sd_count sd_read sd_last sd_rest]. destruct (N.leb_spec c n); [lia|].
  rewrite dec_preview_app by (red; lia). cbn [bind fst snd]. rewrite Sz.
  destruct t; cbn [do]; unfold decode_section, skip_section; cbn [sd_last sd_rest sd_read sd_count].
  - rewrite D. reflexivity.
  - rewrite read_bytes_app_n by (unfold nlen in *; lia). reflexivity.
Qed.

Lemma walk_sections choices l bufs bs rest n c :
  Forall2 (fun s kb => fst kb = section_kind_of s /\ enc_section s = Some (snd kb)) l bufs ->
  Forall (fun s => section_wf s /\ section_size s < 4294967295) l ->
  enc_seq enc_buf bufs = Some bs -> (length choices <= length l)%nat -> n + nlen l <= c ->
  exists tail, walk (ops_of choices) (mkSdec None n c (bs ++ rest)) = Ok (seen_of choices l, mkSdec None (n + nlen choices) c tail) /\
    (length choices = length l -> tail = rest).
Proof.
  intros F. revert choices bs n. induction F as [|s [k b] l bufs [Hk Hb] F IH]; intros choices bs n Hw He Hc Hn.
  - destruct choices; [|cbn in Hc; lia]. injection He as <-. exists rest. cbn. rewrite N.add_0_r. auto.
  - destruct choices as [|t choices]; [eexists; cbn [ops_of flat_map walk seen_of combine]; unfold nlen; cbn [length]; rewrite N.add_0_r; split; [reflexivity|discriminate]|].
    inversion Hw as [|? ? [Hs Hz] Hl]; subst. cbn [fst snd] in Hk, Hb. subst k.
    apply enc_seq_cons_inv in He as (p & bs' & Ep & Eb & ->). apply enc_buf_inv in Ep as [Hlen ->].
    cbn [length] in Hc. rewrite nlen_cons in Hn. destruct (IH choices bs' (n + 1) Hl Eb ltac:(lia) ltac:(lia)) as (tail & W & T).
    exists tail. split; [|intros X; apply T; cbn in X; lia].
    change (ops_of (t :: choices)) with ([Next; if t then Take else Leave] ++ ops_of choices).
    change (seen_of (t :: choices) (s :: l)) with ([Announced (section_kind_of s) (section_size s); if t then Taken s else Left] ++ seen_of choices l).
    rewrite walk_app, <- !(app_assoc (be_bytes 2 _ ++ be_bytes 4 _)), <- (app_assoc b).
    rewrite (one_section s b (bs' ++ rest) n c t Hs Hz Hb) by lia. cbn [bind]. rewrite W. cbn [bind]. rewrite nlen_cons. do 3 f_equal. lia.
Qed.

Lemma new_sections l : sections_wf l -> exists bs, enc_sections l = Some bs /\ forall rest choices, (length choices <= length l)%nat ->
  exists d tail, sd_new (bs ++ rest) = Ok d /\ section_count d = nlen l /\ sd_last d = None /\
    walk (ops_of choices) d = Ok (seen_of choices l, mkSdec None (nlen choices) (nlen l) tail) /\ (length choices = length l -> tail = rest).
Proof.
  intros [Hn Hw]. unfold enc_sections.
  destruct (enc_buffers_app l [] Hw Hn) as (bufs & -> & F). cbn [obind app].
  pose proof (kinds_bound l Hn) as Hb. pose proof (F2_length _ _ _ F) as Hlen.
  unfold finish, u16_max. destruct (N.ltb_spec (nlen bufs) 65535); [|unfold nlen in *; lia].
  destruct (enc_seq enc_buf bufs) as [b|] eqn:E.
  2:{ exfalso. clear - Hw F E. induction F as [|s [k b] l bufs [Hk Hb] F IH]; [discriminate E|].
      inversion Hw as [|? ? [Hs Hz] Hl]; subst. cbn [fst snd] in *. subst k.
      destruct (section_rt s Hs Hz) as (b' & E' & Sz & D). rewrite Hb in E'. apply Some_inj in E'. subst b'. cbn [enc_seq] in E.
      rewrite (enc_buf_some (section_kind_of s) b) in E by lia. cbn [obind] in E. destruct (enc_seq enc_buf bufs); [discriminate E|auto]. }
  cbn [obind]. eexists. split; [reflexivity|]. intros rest choices Hc.
  destruct (walk_sections choices l bufs b rest 0 (nlen l) F Hw E Hc ltac:(lia)) as (tail & W & T).
  exists (mkSdec None 0 (nlen l) (b ++ rest)), tail. split; [|split; [reflexivity|split; [reflexivity|split; [exact W|exact T]]]].
  unfold sd_new. rewrite <- app_assoc, dec_u16_app by (red; unfold nlen in *; lia). cbn [bind]. unfold nlen. now rewrite Hlen.
Qed.

(** ** C120 *)

(** Walking through the sections of a template, and taking any of them, shows each section with its
    kind and its size in the order of the template, and takes it as it was encoded; the end comes
    after the last one, in front of whatever follows. *)
Theorem C120_walk : forall l, sections_wf l -> exists bs, enc_sections l = Some bs /\
  forall rest choices, (length choices <= length l)%nat ->
  exists d d', sd_new (bs ++ rest) = Ok d /\ section_count d = nlen l /\
    walk (ops_of choices) d = Ok (seen_of choices l, d') /\
    (is_eof d' = true <-> length choices = length l) /\
    (length choices = length l -> sd_rest d' = rest /\ next_preview d' = Err OtherError).
Proof.
  intros l W. destruct (new_sections l W) as (bs & E & H). exists bs. split; [exact E|]. intros rest choices Hc.
  destruct (H rest choices Hc) as (d & tail & En & Cn & _ & Wk & T). exists d. eexists. split; [exact En|]. split; [exact Cn|]. split; [exact Wk|].
  unfold is_eof. cbn [sd_count sd_read sd_rest]. split; [unfold nlen; lia|]. intros X. split; [auto|].
  unfold next_preview, is_eof. cbn [sd_count sd_read]. destruct (N.leb_spec (nlen l) (nlen choices)); [reflexivity|unfold nlen in *; lia].
Qed.
Print Assumptions C120_walk.

Lemma decode_loop_same w n : forall acc k c r, k + N.of_nat n <= c ->
  decode_loop w n acc (mkSdec None k c r) = let* (l, r') := dec_sections_loop w n acc r in Ok (l, mkSdec None (k + N.of_nat n) c r').
Proof.
  induction n as [|n IH]; intros acc k c r Hc; cbn [decode_loop dec_sections_loop].
  - cbn [bind]. now rewrite N.add_0_r.
  - unfold next_preview, is_eof. cbn [sd_count sd_read sd_last sd_rest]. destruct (N.leb_spec c k); [lia|].
    destruct (dec_preview r) as [[[kd sz] r1]|?|]; cbn [bind fst snd]; [|reflexivity..].
    destruct (w kd).
    + unfold decode_section. cbn [sd_last sd_rest sd_read sd_count]. destruct (dec_section kd r1) as [[s r2]|?|]; cbn [bind]; [|reflexivity..].
      rewrite IH by lia. destruct (dec_sections_loop w n (insert_section s acc) r2) as [[l r3]|?|]; cbn [bind]; [|reflexivity..]. do 3 f_equal. lia.
    + unfold skip_section. cbn [sd_last sd_rest sd_read sd_count]. destruct (read_bytes (N.to_nat sz) r1) as [[s r2]|?|]; cbn [bind]; [|reflexivity..].
      rewrite IH by lia. destruct (dec_sections_loop w n acc r2) as [[l r3]|?|]; cbn [bind]; [|reflexivity..]. do 3 f_equal. lia.
Qed.
(** Decoding all the sections, or those of some kinds, is such a walk. *)
Theorem C120_same : forall interests bs, decode_sections interests bs = dec_sections interests bs.
Proof.
  intros interests bs. unfold decode_sections, dec_sections, sd_new. destruct (dec_u16 bs) as [[n r]|?|]; cbn [bind]; [|reflexivity..].
  cbn [section_count sd_count]. rewrite decode_loop_same by lia. destruct (dec_sections_loop _ _ _ _) as [[l r']|?|]; reflexivity.
Qed.
Print Assumptions C120_same.

(** The state of a walk. *)
Lemma do_pending o d x d' : do o d = Ok (x, d') ->
  (o = Next /\ sd_last d = None /\ sd_last d' <> None) \/ (o <> Next /\ sd_last d <> None /\ sd_last d' = None).
Proof.
  destruct o; cbn [do]; unfold next_preview, decode_section, skip_section.
  - destruct (is_eof d); [discriminate|]. destruct (sd_last d); [discriminate|]. destruct (dec_preview _) as [[p r]|?|]; [|discriminate..]. cbn [bind]. intros [= _ <-]. left. cbn. repeat split; discriminate.
  - destruct (sd_last d) as [[k s]|]; [|discriminate]. destruct (dec_section _ _) as [[p r]|?|]; [|discriminate..]. cbn [bind]. intros [= _ <-]. right. cbn. repeat split; discriminate.
  - destruct (sd_last d) as [[k s]|]; [|discriminate]. destruct (read_bytes _ _) as [[p r]|?|]; [|discriminate..]. cbn [bind]. intros [= _ <-]. right. cbn. repeat split; discriminate.
Qed.
Lemma walk_in_order ops : forall d xs d', sd_last d = None -> walk ops d = Ok (xs, d') ->
  in_order ops /\ (sd_last d' = None <-> Nat.even (length ops) = true).
Proof.
  induction ops as [ops IH] using (induction_ltof1 _ (@length op)). unfold ltof in IH. intros d xs d' L W.
  destruct ops as [|o ops]; [cbn in W; injection W as _ <-; split; [constructor|cbn; tauto]|].
  cbn [walk] in W. destruct (do o d) as [[x d1]|?|] eqn:E; cbn [bind] in W; [|discriminate..].
  destruct (walk ops d1) as [[ys d2]|?|] eqn:E2; cbn [bind] in W; [|discriminate..]. injection W as _ <-.
  destruct (do_pending _ _ _ _ E) as [(-> & _ & P)|(N1 & N2 & _)]; [|congruence].
  destruct ops as [|o2 ops]; [cbn in E2; injection E2 as _ <-; split; [constructor|]; cbn; split; [congruence|discriminate]|].
  cbn [walk] in E2. destruct (do o2 d1) as [[x2 d3]|?|] eqn:E3; cbn [bind] in E2; [|discriminate..].
  destruct (walk ops d3) as [[zs d4]|?|] eqn:E4; cbn [bind] in E2; [|discriminate..]. injection E2 as _ <-.
  destruct (do_pending _ _ _ _ E3) as [(-> & N1 & _)|(N1 & N2 & N3)]; [congruence|].
  destruct (IH ops ltac:(cbn; lia) d3 zs d4 N3 E4) as [I1 I2]. split; [|cbn [length Nat.even]; exact I2].
  constructor; [destruct o2; auto; congruence|exact I1].
Qed.
Lemma in_order_app ops o : in_order ops -> in_order (ops ++ [o]) <-> (if Nat.even (length ops) then o = Next else o <> Next).
Proof.
  induction 1 as [| |o1 ops H1 H IH]; cbn [app length Nat.even].
  - split; [intros X; inversion X; auto|intros ->; constructor].
  - split; [intros X; inversion X as [| |? ? [->| ->] ?]; discriminate|]. intros N. constructor; [destruct o; auto; congruence|constructor].
  - rewrite <- IH. split; [intros X; inversion X; auto|intros X; now constructor].
Qed.
(** The decoder insists on the order: what was announced must be taken or left before the next one is
    asked for, and cannot be taken twice.  Anything else aborts. *)
Theorem C120_order : forall bs d ops xs d', sd_new bs = Ok d -> walk ops d = Ok (xs, d') ->
  in_order ops /\
  forall o, ~ in_order (ops ++ [o]) -> (o = Next -> is_eof d' = false) -> do o d' = Panic.
Proof.
  intros bs d ops xs d' E W. assert (L : sd_last d = None) by (unfold sd_new in E; destruct (dec_u16 bs) as [[n r]|?|]; [|discriminate..]; injection E as <-; reflexivity).
  destruct (walk_in_order ops d xs d' L W) as [I1 I2]. split; [exact I1|]. intros o No Ne. rewrite (in_order_app _ o I1) in No.
  destruct (Nat.even (length ops)).
  - assert (Ld : sd_last d' = None) by tauto. destruct o; [congruence|..]; cbn [do]; unfold decode_section, skip_section; now rewrite Ld.
  - assert (Ld : sd_last d' <> None) by (intros X; apply I2 in X; discriminate). destruct o; [|exfalso; apply No; discriminate..].
    cbn [do]. unfold next_preview. rewrite (Ne eq_refl). destruct (sd_last d'); [reflexivity|congruence].
Qed.
Print Assumptions C120_order.
(** Looking through any bytes without taking anything never aborts. *)
Theorem C120_leaving_total : forall bs d n, sd_new bs = Ok d -> walk (ops_of (repeat false n)) d <> Panic.
Proof.
  intros bs d n E. assert (L : sd_last d = None) by (unfold sd_new in E; destruct (dec_u16 bs) as [[m r]|?|]; [|discriminate..]; injection E as <-; reflexivity).
  clear bs E. revert d L. induction n as [|n IH]; intros d L; [discriminate|].
  cbn [repeat ops_of flat_map app]. fold (ops_of (repeat false n)). cbn [walk do]. unfold next_preview.
  destruct (is_eof d); [discriminate|]. rewrite L. destruct (np_preview (sd_rest d)) as [[e P]|([k s] & pre & r & P & _)]; rewrite P; [discriminate|].
  cbn [bind fst snd]. cbn [do]. unfold skip_section. cbn [sd_last sd_rest sd_read sd_count].
  destruct (np_read_bytes (N.to_nat s) r) as [[e Q]|(x & pre' & r' & Q & _)]; rewrite Q; [discriminate|].
  cbn [bind]. specialize (IH (mkSdec None (sd_read d + 1) (sd_count d) r') eq_refl). destruct (walk _ _) as [[xs d']|?|]; [discriminate..|congruence].
Qed.
Print Assumptions C120_leaving_total.

Lemma assert_step d k n d1 d2 : next_preview d = Ok ((k, n), d1) -> skip_section d1 = Ok d2 -> assert_section d k = Ok d2.
Proof. intros A B. unfold assert_section. rewrite A. cbn [bind fst]. rewrite kind_eqb_refl, B. reflexivity. Qed.
(** The checks that "craft-deploy" makes on the message it wrote succeed. *)
Theorem C120_craft_checks : forall order compile t msg, MacroProps.crafting order compile t -> MacroModel.craft order compile t = Some msg ->
  test_sections_encoding msg = Ok tt /\ test_decode_as_template msg = Ok tt.
Proof.
  intros order compile t msg (P1 & P2 & P3 & P4) E. destruct (MacroProofs.craft_sections order P1 compile P2 t P3 P4 msg E) as (g & m & layout & Em & El & W & Q).
  destruct (C120_walk _ W) as (bs & Eb & H). rewrite Q in Eb. apply Some_inj in Eb. subst bs.
  specialize (H [] [false; false; false] ltac:(cbn; lia)) as (d & d' & En & Cn & Wk & _). rewrite app_nil_r in En. split.
  - unfold test_sections_encoding. rewrite En. cbn [bind]. rewrite Cn.
    match goal with |- context [nlen ?l =? 3] => change (nlen l =? 3) with true end. cbv iota.
    cbn [ops_of flat_map app walk] in Wk. unfold do in Wk.
    repeat match type of Wk with context [next_preview ?x] =>
      let P := fresh "P" in destruct (next_preview x) as [[[? ?] ?]|?|] eqn:P; cbn [bind fst snd] in Wk; [|discriminate Wk..];
      match type of Wk with context [skip_section ?y] => let Q := fresh "Q" in destruct (skip_section y) as [?|?|] eqn:Q; cbn [bind] in Wk; [|discriminate Wk..] end end.
    cbn [seen_of combine flat_map app fst snd section_kind_of] in Wk. injection Wk as ? ? ? ? ? ? ?. subst.
    repeat match goal with H : next_preview ?x = Ok (_, ?y), H' : skip_section ?y = _ |- context [assert_section ?x] =>
      rewrite (assert_step _ _ _ _ _ H H'); cbn [bind] end. reflexivity.
  - unfold test_decode_as_template. destruct (MacroProofs.craft_decodes order P1 compile P2 t P3 P4 msg E) as (g' & m' & l' & _ & _ & D).
    specialize (D []). rewrite app_nil_r in D. now rewrite D.
Qed.
Print Assumptions C120_craft_checks.

Lemma enc_buffers_two a b acc : enc_buffers (a ++ b) acc = let? e := enc_buffers a acc in enc_buffers b e.
Proof. revert acc. induction a as [|s a IH]; intros acc; cbn [app enc_buffers obind]; [reflexivity|]. destruct (enc_section s); cbn [obind]; [apply IH|reflexivity]. Qed.
(** Sections can be given to the encoder in several portions, as long as no kind comes twice. *)
Theorem C120_portions : forall portions, sections_wf (concat portions) ->
  exists e bs, fold_left (fun e l => let? e := e in encoder_encode l e) portions (Some encoder_default) = Some e /\ encoder_finish e = Some bs /\
  forall rest, dec_sections None (bs ++ rest) = Ok (concat portions, rest).
Proof.
  intros portions W. destruct (sections_rt _ W) as (bs & E & _ & D).
  assert (F : forall acc, fold_left (fun e l => let? e := e in encoder_encode l e) portions acc = let? e := acc in enc_buffers (concat portions) e).
  { clear. unfold encoder_encode. induction portions as [|l portions IH]; intros acc; cbn [fold_left concat]; [now destruct acc|]. rewrite IH. destruct acc as [e|]; cbn [obind]; [now rewrite enc_buffers_two|reflexivity]. }
  rewrite F. cbn [obind]. unfold enc_sections in E. unfold encoder_default, encoder_finish. destruct (enc_buffers (concat portions) []) as [e|]; [|discriminate E].
  cbn [obind] in E. exists e, bs. split; [reflexivity|]. split; [exact E|]. intros rest. rewrite (D None rest). now rewrite keep_all.
Qed.
Print Assumptions C120_portions.
(** A kind that comes twice spoils the message: the second constructors are not found, and what
    follows is read in the wrong place. *)
Definition twice : list sections := [[SCtors [[97]]]; [SCtors [[98]]; SHeader (mkHeader 0 [] [])]].
Theorem C120_twice_refuted : ~ (forall portions e bs,
  fold_left (fun e l => let? e := e in encoder_encode l e) portions (Some encoder_default) = Some e -> encoder_finish e = Some bs ->
  exists l, dec_sections None bs = Ok (l, [])).
Proof.
  intros H. destruct (H twice _ _ eq_refl eq_refl) as [l E]. vm_compute in E. discriminate E.
Qed.
Print Assumptions C120_twice_refuted.

Example C120_satisfiable :
  sections_wf ex_sections /\ exists bs d xs d', enc_sections ex_sections = Some bs /\ sd_new bs = Ok d /\
  walk (ops_of [true; false; true]) d = Ok (xs, d') /\ length xs = 6%nat /\ nth_error xs 2 = Some (Announced KHeader 9) /\ is_eof d' = false /\
  do Take d' = Panic.
Proof.
  split; [apply C12_satisfiable|]. destruct (enc_sections ex_sections) as [bs|] eqn:E; [|vm_compute in E; discriminate E].
  destruct (sd_new bs) as [d|?|] eqn:N; [|vm_compute in E; injection E as <-; vm_compute in N; discriminate N..].
  vm_compute in E. injection E as <-. vm_compute in N. injection N as <-. repeat eexists.
Qed.
