(** What the section decoder accepts: if it can be encoded again it is well formed. *)
From Coq Require Import List NArith ZArith Lia Bool.
From Coq Require Import ZifyBool ZifyNat ZifyN.
From Verif Require Import Base CodecModel CodecSpec CodecProofs LayoutModel LayoutSpec LayoutProofs
  SectionModel SectionSpec SectionProofs.
Import ListNotations.
Open Scope N_scope.

Definition yields {A} (d : decoder A) (P : A -> Prop) : Prop :=
  forall bs x r, bytes_ok bs -> d bs = Ok (x, r) -> P x /\ bytes_ok r.

Lemma yields_bind {A B} (d : decoder A) (k : A -> decoder B) P Q :
  yields d P -> (forall a, P a -> yields (k a) Q) ->
  yields (fun bs => let* (a, r) := d bs in k a r) Q.
Proof.
  intros Hd Hk bs x r Hb H. destruct (d bs) as [[a r']| |] eqn:E; try discriminate.
  destruct (Hd _ _ _ Hb E) as [Ha Hr]. exact (Hk a Ha _ _ _ Hr H).
Qed.
Lemma yields_ret {A} (x : A) (P : A -> Prop) : P x -> yields (fun bs => Ok (x, bs)) P.
Proof. intros H bs y r Hb [= <- <-]. auto. Qed.
Lemma yields_panic {A} (P : A -> Prop) : yields (fun _ => Panic) P.
Proof. intros bs x r _ H. discriminate. Qed.
Lemma yields_err {A} e (P : A -> Prop) : yields (fun _ => Err e) P.
Proof. intros bs x r _ H. discriminate. Qed.

Lemma yields_uint w bits : 2 ^ bits = 256 ^ N.of_nat w -> yields (dec_uint w) (uint_wf bits).
Proof. intros Hp bs x r Hb H. apply dec_uint_inv in H as (? & ? & ?); auto. unfold uint_wf. now rewrite Hp. Qed.
Lemma yields_u16 : yields dec_u16 (uint_wf 16). Proof. now apply yields_uint. Qed.
Lemma yields_u32 : yields dec_u32 (uint_wf 32). Proof. now apply yields_uint. Qed.
Lemma yields_u64 : yields dec_u64 (uint_wf 64). Proof. now apply yields_uint. Qed.
Lemma yields_byte : yields read_byte is_byte.
Proof. intros [|b bs] x r Hb H; try discriminate. injection H as <- <-. now apply bytes_ok_cons in Hb. Qed.
Lemma yields_array n : yields (dec_array n) (array_wf n).
Proof.
  intros bs x r Hb H. apply read_bytes_inv in H as [H ->]. apply bytes_ok_app in Hb as [? ?]. now split.
Qed.
Lemma yields_string : yields dec_string (string_wf 255).
Proof. intros bs x r Hb H. apply dec_string_inv in H as (? & ? & ?); auto. Qed.
Lemma yields_data w : yields (dec_data w) (fun d => nlen d < 256 ^ N.of_nat w /\ bytes_ok d).
Proof. intros bs x r Hb H. apply dec_data_inv in H as (? & ? & ? & ?); auto. Qed.

Lemma yields_seq {A} (d : decoder A) P n : yields d P -> yields (dec_seq d n) (fun l => length l = n /\ Forall P l).
Proof.
  intros Hd. induction n as [|n IH]; cbn [dec_seq].
  - apply yields_ret. auto.
  - intros bs x r Hb H. destruct (d bs) as [[a r1]| |] eqn:E1; try discriminate. cbn [bind] in H.
    destruct (Hd _ _ _ Hb E1) as [Ha Hr1].
    destruct (dec_seq d n r1) as [[l r2]| |] eqn:E2; try discriminate. cbn [bind] in H. injection H as <- <-.
    destruct (IH _ _ _ Hr1 E2) as [[Hl HF] Hr2]. split; auto. split; [cbn; congruence|]. now constructor.
Qed.

(** What decoding guarantees, before asking that it can be encoded. *)
Definition layout_wf0 (l : fixed_layout) : Prop :=
  exists first sizes,
    fl_first l = Some first /\ Forall (uint_wf 16) sizes
    /\ (sizes = [] -> first = 0) /\ (sizes <> [] -> first + nlen sizes <= 4294967296)
    /\ length (fl_vars l) = length sizes
    /\ forall i v, nth_error (fl_vars l) i = Some v -> declared_var first sizes i v.
Definition section_wf0 (s : section) : Prop :=
  match s with
  | SCode c => uint_wf 32 (cs_svm_version c) /\ bytes_ok (cs_code c) /\ uint_wf 64 (cs_flags c)
               /\ cs_gas_mode c = Fixed /\ nlen (cs_code c) < 4294967296
  | SData ls => nlen ls <= 65535 /\ Forall layout_wf0 ls
  | SCtors cs => nlen cs <= 255 /\ Forall (string_wf 255) cs
  | s => section_wf s
  end.

Lemma yields_layout : yields dec_layout layout_wf0.
Proof.
  intros bs x r Hb H. unfold dec_layout, dec_layout_kind in H.
  destruct (dec_u16 bs) as [[k r1]| |] eqn:E1; try discriminate. cbn [bind] in H.
  destruct (yields_u16 _ _ _ Hb E1) as [_ Hb1].
  destruct (k =? 1); try discriminate. cbn [bind] in H.
  destruct (dec_u16 r1) as [[n r2]| |] eqn:E2; try discriminate. cbn [bind] in H.
  destruct (yields_u16 _ _ _ Hb1 E2) as [Hn Hb2].
  destruct (N.ltb_spec 0 n) as [Hpos|Hz].
  - destruct (dec_u32 r2) as [[first r3]| |] eqn:E3; try discriminate. cbn [bind] in H.
    destruct (yields_u32 _ _ _ Hb2 E3) as [Hfirst Hb3].
    destruct (dec_seq dec_u16 (N.to_nat n) r3) as [[sizes r4]| |] eqn:E4; try discriminate. cbn [bind fst snd] in H.
    destruct (yields_seq _ _ _ yields_u16 _ _ _ Hb3 E4) as [[Hl HF] Hb4].
    destruct (from_byte_sizes first sizes) as [l|] eqn:E5; try discriminate. injection H as <- <-.
    split; auto. pose proof (proj1 (from_byte_sizes_defined first sizes) (ex_intro _ _ E5)) as Hdef.
    destruct (from_byte_sizes_inv _ _ _ E5) as (H1 & H2 & H3).
    exists first, sizes. split; [auto|]. split; [auto|]. split; [|split; [|auto]].
    + intros ->. cbn in Hl. lia.
    + intros Hne. destruct Hdef as [->|[Hd _]]; [contradiction|]. unfold u32_max in Hd. lia.
  - cbn [bind fst snd] in H. destruct (from_byte_sizes 0 []) as [l|] eqn:E5; try discriminate. injection H as <- <-.
    split; auto. destruct (from_byte_sizes_inv _ _ _ E5) as (H1 & H2 & H3).
    exists 0, []. split; [auto|]. split; [auto|]. split; [auto|]. split; [contradiction|auto].
Qed.

Lemma yields_section k : yields (dec_section k) (fun s => section_wf0 s /\ section_kind_of s = k).
Proof.
  intros bs x r Hb H. destruct k; cbn [dec_section] in H; try discriminate.
  - unfold dec_code, dec_code_kind, dec_gas_mode in H.
    destruct (dec_u16 bs) as [[k r1]| |] eqn:E1; try discriminate. cbn [bind] in H.
    destruct (yields_u16 _ _ _ Hb E1) as [_ Hb1]. destruct (k =? 1); try discriminate. cbn [bind] in H.
    destruct (dec_u64 r1) as [[f r2]| |] eqn:E2; try discriminate. cbn [bind] in H.
    destruct (yields_u64 _ _ _ Hb1 E2) as [Hf Hb2].
    destruct (dec_u64 r2) as [[m r3]| |] eqn:E3; try discriminate. cbn [bind] in H.
    destruct (yields_u64 _ _ _ Hb2 E3) as [_ Hb3]. destruct (m =? 1); try discriminate. cbn [bind] in H.
    destruct (dec_u32 r3) as [[v r4]| |] eqn:E4; try discriminate. cbn [bind] in H.
    destruct (yields_u32 _ _ _ Hb3 E4) as [Hv Hb4].
    destruct (dec_data 4 r4) as [[c r5]| |] eqn:E5; try discriminate. cbn [bind] in H.
    destruct (yields_data 4 _ _ _ Hb4 E5) as [[Hc Hco] Hb5]. injection H as <- <-.
    split; auto. split; auto. cbn. auto.
  - unfold dec_data_section in H.
    destruct (dec_u16 bs) as [[n r1]| |] eqn:E1; try discriminate. cbn [bind] in H.
    destruct (yields_u16 _ _ _ Hb E1) as [Hn Hb1].
    destruct (dec_seq dec_layout (N.to_nat n) r1) as [[l r2]| |] eqn:E2; try discriminate. cbn [bind] in H.
    destruct (yields_seq _ _ _ yields_layout _ _ _ Hb1 E2) as [[Hl HF] Hb2]. injection H as <- <-.
    split; auto. split; auto. split; auto. unfold nlen. unfold uint_wf in Hn. lia.
  - unfold dec_ctors in H.
    destruct (read_byte bs) as [[n r1]| |] eqn:E1; try discriminate. cbn [bind] in H.
    destruct (yields_byte _ _ _ Hb E1) as [Hn Hb1].
    destruct (dec_seq dec_string (N.to_nat n) r1) as [[l r2]| |] eqn:E2; try discriminate. cbn [bind] in H.
    destruct (yields_seq _ _ _ yields_string _ _ _ Hb1 E2) as [[Hl HF] Hb2]. injection H as <- <-.
    split; auto. split; auto. split; auto. unfold nlen. unfold is_byte in Hn. lia.
  - unfold dec_header_section in H.
    destruct (dec_u32 bs) as [[v r1]| |] eqn:E1; try discriminate. cbn [bind] in H.
    destruct (yields_u32 _ _ _ Hb E1) as [Hv Hb1].
    destruct (dec_string r1) as [[n r2]| |] eqn:E2; try discriminate. cbn [bind] in H.
    destruct (yields_string _ _ _ Hb1 E2) as [Hn Hb2].
    destruct (dec_string r2) as [[d r3]| |] eqn:E3; try discriminate. cbn [bind] in H.
    destruct (yields_string _ _ _ Hb2 E3) as [Hd Hb3]. injection H as <- <-.
    split; auto. split; auto. cbn. auto.
  - unfold dec_deploy in H.
    destruct (dec_array TXID_LEN bs) as [[t r1]| |] eqn:E1; try discriminate. cbn [bind] in H.
    destruct (yields_array _ _ _ _ Hb E1) as [Ht Hb1].
    destruct (dec_u64 r1) as [[l r2]| |] eqn:E2; try discriminate. cbn [bind] in H.
    destruct (yields_u64 _ _ _ Hb1 E2) as [Hl Hb2].
    destruct (dec_array ADDRESS_LEN r2) as [[d r3]| |] eqn:E3; try discriminate. cbn [bind] in H.
    destruct (yields_array _ _ _ _ Hb2 E3) as [Hd Hb3].
    destruct (dec_array ADDRESS_LEN r3) as [[a r4]| |] eqn:E4; try discriminate. cbn [bind] in H.
    destruct (yields_array _ _ _ _ Hb3 E4) as [Ha Hb4]. injection H as <- <-.
    split; auto. split; auto. cbn. auto.
Qed.

Lemma insert_kinds x l : map section_kind_of (insert_section x l) =
  if existsb (fun s => kind_eqb (section_kind_of x) (section_kind_of s)) l then map section_kind_of l
  else map section_kind_of l ++ [section_kind_of x].
Proof.
  induction l as [|y l IH]; cbn [insert_section existsb map app]; auto.
  destruct (kind_eqb (section_kind_of x) (section_kind_of y)) eqn:E; cbn [orb map].
  - apply kind_eqb_spec in E. now rewrite E.
  - rewrite IH. destruct (existsb _ l); reflexivity.
Qed.
Lemma insert_nodup x l : NoDup (map section_kind_of l) -> NoDup (map section_kind_of (insert_section x l)).
Proof.
  intros H. rewrite insert_kinds. destruct (existsb _ l) eqn:E; auto.
  assert (Hn : ~ In (section_kind_of x) (map section_kind_of l)).
  { intros Hin. apply in_map_iff in Hin as (y & Hy & Hin).
    assert (existsb (fun s => kind_eqb (section_kind_of x) (section_kind_of s)) l = true); [|congruence].
    apply existsb_exists. exists y. split; auto. apply kind_eqb_spec. auto. }
  clear E. induction (map section_kind_of l) as [|k ks IH]; cbn.
  - repeat constructor. intros [].
  - inversion H; subst. constructor.
    + intros Hin. apply in_app_or in Hin as [Hin|[Hin|[]]]; [auto|]. apply Hn. now left.
    + apply IH; auto. intros Hin. apply Hn. now right.
Qed.
Lemma insert_forall (P : section -> Prop) x l : P x -> Forall P l -> Forall P (insert_section x l).
Proof.
  intros Hx H. induction H as [|y l Hy H IH]; cbn [insert_section]; [auto|].
  destruct (kind_eqb _ _); auto.
Qed.

Lemma yields_loop w n acc : NoDup (map section_kind_of acc) -> Forall section_wf0 acc ->
  yields (dec_sections_loop w n acc) (fun l => NoDup (map section_kind_of l) /\ Forall section_wf0 l).
Proof.
  revert acc. induction n as [|n IH]; intros acc Hn Hf bs x r Hb H; cbn [dec_sections_loop] in H.
  - injection H as <- <-. auto.
  - destruct (dec_preview bs) as [[[k size] r1]| |] eqn:E1; try discriminate. cbn [bind fst snd] in H.
    assert (Hb1 : bytes_ok r1).
    { unfold dec_preview, dec_section_kind in E1.
      destruct (dec_u16 bs) as [[n1 q1]| |] eqn:E2; try discriminate. cbn [bind] in E1.
      destruct (yields_u16 _ _ _ Hb E2) as [_ Hq1].
      repeat match type of E1 with context [if ?b then _ else _] => destruct b end; cbn [bind] in E1; try discriminate;
        (destruct (dec_u32 q1) as [[n2 q2]| |] eqn:E3; try discriminate; cbn [bind] in E1;
         destruct (yields_u32 _ _ _ Hq1 E3) as [_ Hq2]; congruence). }
    destruct (w k).
    + destruct (dec_section k r1) as [[s r2]| |] eqn:E2; try discriminate. cbn [bind] in H.
      destruct (yields_section k _ _ _ Hb1 E2) as [[Hs _] Hb2].
      eapply IH; [| |exact Hb2|exact H]; [now apply insert_nodup|now apply insert_forall].
    + destruct (read_bytes (N.to_nat size) r1) as [[s r2]| |] eqn:E2; try discriminate. cbn [bind] in H.
      apply read_bytes_inv in E2 as [_ ->]. apply bytes_ok_app in Hb1 as [_ Hb2].
      eapply IH; eauto.
Qed.
Lemma yields_sections i : yields (dec_sections i) (fun l => NoDup (map section_kind_of l) /\ Forall section_wf0 l).
Proof.
  intros bs x r Hb H. unfold dec_sections in H.
  destruct (dec_u16 bs) as [[n r1]| |] eqn:E1; try discriminate. cbn [bind] in H.
  destruct (yields_u16 _ _ _ Hb E1) as [_ Hb1].
  eapply yields_loop; [| |exact Hb1|exact H]; constructor.
Qed.

(** Encodable sections are within the limits of the encoder. *)
Lemma enc_layout_limits l b : layout_wf0 l -> enc_layout l = Some b -> layout_wf l.
Proof.
  intros (first & sizes & H1 & H2 & H3 & H4 & H5 & H6) H. exists first, sizes.
  split; [auto|]. split; [|auto].
  unfold enc_layout in H. destruct (enc_u16 1); try discriminate. cbn [obind] in H.
  destruct (N.ltb_spec (nlen (fl_vars l)) 65535); try discriminate. unfold nlen in *. lia.
Qed.
Lemma enc_seq_forall {A} (e : encoder A) (P Q : A -> Prop) l b : (forall x c, P x -> e x = Some c -> Q x) ->
  Forall P l -> enc_seq e l = Some b -> Forall Q l.
Proof.
  intros H HP. revert b. induction HP as [|x l Hx HP IH]; intros b Hb; [constructor|].
  apply enc_seq_cons_inv in Hb as (c & d & E1 & E2 & _). constructor; eauto.
Qed.
Lemma enc_section_limits s b : section_wf0 s -> enc_section s = Some b ->
  section_wf s /\ nlen b = section_size s.
Proof.
  intros H0 E.
  assert (H : section_wf s).
  { destruct s as [h|c|ls|cs| | |d]; cbn [section_wf0] in H0; auto.
    - cbn. tauto.
    - destruct H0 as [Hn HF]. split; auto. cbn [enc_section] in E. unfold enc_data_section in E.
      destruct (nlen ls <=? u16_max); try discriminate.
      destruct (enc_seq enc_layout ls) eqn:E2; try discriminate.
      eapply enc_seq_forall; [|exact HF|exact E2]. intros. eapply enc_layout_limits; eauto.
    - destruct H0 as [Hn HF]. split; auto. cbn [enc_section] in E. unfold enc_ctors in E.
      destruct (N.ltb_spec (nlen cs) 255); try discriminate. lia. }
  split; auto. destruct (section_rt_code s H) as (b' & E' & L & _); [|congruence].
  intros c ->. cbn in H0. tauto.
Qed.

Lemma enc_buffers_inv l acc bufs : Forall section_wf0 l -> NoDup (map fst acc ++ map section_kind_of l) ->
  enc_buffers l acc = Some bufs ->
  exists more, bufs = acc ++ more
    /\ Forall2 (fun s kb => fst kb = section_kind_of s /\ enc_section s = Some (snd kb)) l more.
Proof.
  revert acc. induction l as [|s l IH]; intros acc Hw Hn E; cbn [enc_buffers] in E.
  - exists []. rewrite app_nil_r. split; [congruence|constructor].
  - inversion Hw; subst. destruct (enc_section s) as [b|] eqn:Es; try discriminate. cbn [obind] in E. cbn [map] in Hn.
    assert (~ In (section_kind_of s) (map fst acc)).
    { apply NoDup_remove_2 in Hn. intros Hin. apply Hn, in_or_app. auto. }
    rewrite buf_append_new in E by auto.
    destruct (IH (acc ++ [(section_kind_of s, b)])) as (more & -> & F); auto.
    { rewrite map_app. cbn [map fst]. rewrite <- app_assoc. exact Hn. }
    exists ((section_kind_of s, b) :: more). rewrite <- app_assoc. split; [reflexivity|]. constructor; auto.
Qed.

Lemma sections_accepted i bs l r b : bytes_ok bs -> dec_sections i bs = Ok (l, r) -> enc_sections l = Some b ->
  sections_wf l.
Proof.
  intros Hb Hd He. destruct (yields_sections i _ _ _ Hb Hd) as [[Hn HF] _]. split; auto.
  unfold enc_sections in He. destruct (enc_buffers l []) as [bufs|] eqn:E; try discriminate. cbn [obind] in He.
  destruct (enc_buffers_inv l [] bufs HF Hn E) as (more & -> & F2). cbn [app] in *.
  unfold finish in He. destruct (nlen more <? u16_max); try discriminate.
  destruct (enc_seq enc_buf more) as [body|] eqn:Eb; try discriminate. clear He E Hd Hn.
  revert body Eb. induction F2 as [|s [k c] l more [Hk Hs] F2 IH]; intros body Eb; [constructor|].
  inversion HF; subst. apply enc_seq_cons_inv in Eb as (p & q & E1 & E2 & _).
  apply enc_buf_inv in E1 as [Hlen _]. cbn [snd] in *.
  destruct (enc_section_limits s c) as [Hw Hz]; auto. constructor; [|eauto]. split; auto. lia.
Qed.
