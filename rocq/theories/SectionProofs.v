(** Lemmas about template sections. *)
From Coq Require Import List NArith ZArith Lia Bool.
From Coq Require Import ZifyBool ZifyNat ZifyN.
From Verif Require Import Base CodecModel CodecSpec CodecProofs LayoutModel LayoutSpec LayoutProofs
  SectionModel SectionSpec.
Import ListNotations.
Open Scope N_scope.

Definition rt_size {A} (e : encoder A) (d : decoder A) (size : A -> N) (x : A) : Prop :=
  exists b, e x = Some b /\ nlen b = size x /\ forall rest, d (b ++ rest) = Ok (x, rest).

Lemma seq_rt_size {A} (e : encoder A) (d : decoder A) size l :
  Forall (rt_size e d size) l ->
  exists bs, enc_seq e l = Some bs /\ nlen bs = total (map size l)
    /\ forall rest, dec_seq d (length l) (bs ++ rest) = Ok (l, rest).
Proof.
  induction 1 as [|x l (bx & Ex & Sx & Dx) _ (bl & El & Sl & Dl)]; cbn [enc_seq dec_seq length map].
  - exists []. auto.
  - rewrite Ex, El. cbn [obind]. exists (bx ++ bl). split; auto. split.
    + rewrite nlen_app, total_cons. congruence.
    + intros rest. rewrite <- app_assoc, Dx. cbn [bind]. now rewrite Dl.
Qed.

Lemma nlen_be w n : nlen (be_bytes w n) = N.of_nat w.
Proof. unfold nlen. now rewrite be_bytes_length. Qed.

Lemma string_rt_size s : string_wf 255 s -> rt_size enc_string dec_string (fun c => 1 + nlen c) s.
Proof.
  intros H. exists (nlen s :: s). split; [apply enc_string_some; apply H|]. split; [apply nlen_cons|].
  intros. now apply dec_string_app.
Qed.

Lemma size_rt s : uint_wf 16 s -> rt_size enc_size dec_u16 (fun _ => 2) s.
Proof.
  intros H. exists (be_bytes 2 s). unfold enc_size.
  rewrite N.mod_small by exact H. split; [reflexivity|]. split; [reflexivity|].
  intros. now apply dec_u16_app.
Qed.

Lemma total_const {A} (l : list A) c : total (map (fun _ => c) l) = c * nlen l.
Proof. induction l; cbn [map]; [change (total []) with 0; change (nlen (@nil A)) with 0|rewrite total_cons, IHl, nlen_cons]; lia. Qed.

Lemma total_bound sizes b : Forall (fun s => s < b) sizes -> total sizes <= b * nlen sizes.
Proof. induction 1; [change (total []) with 0; lia|]. rewrite total_cons, nlen_cons. lia. Qed.

(** A list of variables with the declared properties is the one the constructor builds. *)
Lemma declared_unique first sizes vs ws :
  length vs = length sizes -> length ws = length sizes ->
  (forall i v, nth_error vs i = Some v -> declared_var first sizes i v) ->
  (forall i v, nth_error ws i = Some v -> declared_var first sizes i v) -> vs = ws.
Proof.
  intros Lv Lw Hv Hw. apply nth_error_ext. intros i.
  destruct (nth_error vs i) as [v|] eqn:Ev.
  - assert (i < length ws)%nat by (rewrite Lw, <- Lv; apply nth_error_Some; congruence).
    destruct (nth_error ws i) as [w|] eqn:Ew; [|apply nth_error_None in Ew; lia].
    destruct (Hv _ _ Ev) as (A & B & C), (Hw _ _ Ew) as (A' & B' & C').
    destruct v, w; cbn in *. f_equal. f_equal; congruence.
  - apply nth_error_None in Ev. symmetry. apply nth_error_None. lia.
Qed.

Lemma declared_sizes first sizes vs :
  length vs = length sizes ->
  (forall i v, nth_error vs i = Some v -> declared_var first sizes i v) -> map rv_size vs = sizes.
Proof.
  intros L H. apply nth_error_ext. intros i. rewrite nth_error_map.
  destruct (nth_error vs i) as [v|] eqn:E; cbn [option_map].
  - destruct (H _ _ E) as (_ & B & _). congruence.
  - apply nth_error_None in E. symmetry. apply nth_error_None. lia.
Qed.

Lemma layout_rt l : layout_wf l -> rt_size enc_layout dec_layout layout_size l.
Proof.
  intros (first & sizes & Hf & Hn & Hs & He & Hb & Hl & Hv).
  assert (Hlen : nlen (fl_vars l) = nlen sizes) by (unfold nlen; congruence).
  assert (Hd : exists l', from_byte_sizes first sizes = Some l').
  { apply from_byte_sizes_defined. destruct sizes as [|s r]; [auto|right].
    specialize (Hb ltac:(discriminate)).
    pose proof (total_bound (s :: r) 65536 Hs). unfold u32_max. lia. }
  destruct Hd as (l' & Hd). destruct (from_byte_sizes_inv _ _ _ Hd) as (Hf' & Hl' & Hv').
  assert (l = l').
  { destruct l as [fl vs], l' as [fl' vs']; cbn in *. f_equal; [congruence|].
    apply (declared_unique first sizes); auto. }
  subst l'. unfold rt_size, enc_layout, dec_layout, dec_layout_kind.
  unfold enc_u16, enc_u32, enc_uint. cbn [obind]. rewrite Hlen.
  destruct (N.ltb_spec (nlen sizes) 65535); [|lia].
  destruct sizes as [|s r].
  - destruct (fl_vars l) eqn:Ev; [|discriminate].
    change (0 <? nlen (@nil N)) with false. cbn iota.
    eexists; split; [reflexivity|]. split. { unfold layout_size. rewrite Ev. reflexivity. }
    intros rest. rewrite <- app_assoc.
    rewrite dec_u16_app by (red; lia). cbn [bind]. change (1 =? 1) with true. cbn iota. cbn [bind].
    rewrite dec_u16_app by (red; lia). cbn [bind].
    change (0 <? nlen (@nil N)) with false. cbn iota. cbn [bind fst snd].
    rewrite (He eq_refl) in Hd. rewrite Hd. reflexivity.
  - destruct (N.ltb_spec 0 (nlen (s :: r))); [|rewrite nlen_cons in *; lia].
    rewrite Hf. cbn [obind].
    rewrite (declared_sizes first (s :: r)) by auto.
    destruct (seq_rt_size enc_size dec_u16 (fun _ => 2) (s :: r)) as (sb & -> & Ssz & Dsz).
    { eapply Forall_impl; [|exact Hs]. intros. now apply size_rt. }
    cbn [obind]. eexists; split; [reflexivity|]. split.
    { rewrite !nlen_app, !nlen_be, Ssz, total_const. unfold layout_size.
      destruct (fl_vars l) eqn:Ev; [discriminate|]. rewrite Hlen. lia. }
    intros rest. rewrite <- !app_assoc.
    rewrite dec_u16_app by (red; lia). cbn [bind]. change (1 =? 1) with true. cbn iota. cbn [bind].
    rewrite dec_u16_app by (red; lia). cbn [bind].
    destruct (N.ltb_spec 0 (nlen (s :: r))); [|lia].
    specialize (Hb ltac:(discriminate)).
    rewrite dec_u32_app by (red; rewrite nlen_cons in Hb; lia). cbn [bind].
    unfold nlen at 1. rewrite Nnat.Nat2N.id, Dsz. cbn [bind fst snd]. rewrite Hd. reflexivity.
Qed.

Lemma section_rt_code s : section_wf s -> (forall c, s = SCode c -> nlen (cs_code c) < 4294967296) ->
  rt_size enc_section (dec_section (section_kind_of s)) section_size s.
Proof.
  intros H Hsz. destruct s as [h|c|ls|cs| | |d]; cbn [section_wf] in H; try contradiction.
  - destruct H as (Hv & Hn & Hd). unfold rt_size. cbn [enc_section section_kind_of dec_section].
    unfold enc_header, enc_u32, enc_uint. cbn [obind].
    rewrite (enc_string_some (hs_name h)) by apply Hn. cbn [obind].
    rewrite (enc_string_some (hs_desc h)) by apply Hd. cbn [obind].
    eexists; split; [reflexivity|]. split.
    { cbn [section_size]. rewrite !nlen_app, !nlen_cons, nlen_be. lia. }
    intros rest. rewrite <- !app_assoc. unfold dec_header_section.
    rewrite dec_u32_app by auto. cbn [bind]. rewrite dec_string_app by auto. cbn [bind].
    rewrite dec_string_app by auto. cbn [bind]. destruct h; reflexivity.
  - destruct H as (Hv & Hc & Hf & Hm). unfold rt_size. cbn [enc_section section_kind_of dec_section].
    unfold enc_code, enc_code_kind, enc_gas_mode, enc_u16, enc_u32, enc_u64, enc_uint.
    rewrite Hm. cbn [obind]. specialize (Hsz c eq_refl).
    assert (Hlen : nlen (cs_code c) < 256 ^ N.of_nat 4) by (change (256 ^ N.of_nat 4) with 4294967296; lia).
    rewrite enc_data_some by exact Hlen. cbn [obind].
    eexists; split; [reflexivity|]. split.
    { cbn [section_size]. rewrite !nlen_app, !nlen_be. lia. }
    intros rest. rewrite <- !app_assoc. unfold dec_code, dec_code_kind, dec_gas_mode.
    rewrite dec_u16_app by (red; lia). cbn [bind]. change (1 =? 1) with true. cbn iota. cbn [bind].
    rewrite dec_u64_app by auto. cbn [bind]. rewrite dec_u64_app by (red; lia). cbn [bind].
    change (1 =? 1) with true. cbn iota. cbn [bind].
    rewrite dec_u32_app by auto. cbn [bind]. rewrite dec_data_app by exact Hlen. cbn [bind].
    destruct c; cbn in *. subst. reflexivity.
  - destruct H as (Hn & Hl). unfold rt_size. cbn [enc_section section_kind_of dec_section].
    unfold enc_data_section, dec_data_section, u16_max.
    destruct (N.leb_spec (nlen ls) 65535); [|lia].
    destruct (seq_rt_size enc_layout dec_layout layout_size ls) as (b & -> & S & D).
    { eapply Forall_impl; [|exact Hl]. apply layout_rt. }
    cbn [obind]. eexists; split; [reflexivity|]. split.
    { cbn [section_size]. rewrite nlen_app, nlen_be, S. reflexivity. }
    intros rest. rewrite <- app_assoc. rewrite dec_u16_app by (red; lia). cbn [bind].
    unfold nlen. rewrite Nnat.Nat2N.id, D. reflexivity.
  - destruct H as (Hn & Hl). unfold rt_size. cbn [enc_section section_kind_of dec_section].
    unfold enc_ctors, dec_ctors. destruct (N.ltb_spec (nlen cs) 255); [|lia].
    destruct (seq_rt_size enc_string dec_string (fun c => 1 + nlen c) cs) as (b & -> & S & D).
    { eapply Forall_impl; [|exact Hl]. apply string_rt_size. }
    cbn [obind]. eexists; split; [reflexivity|]. split.
    { cbn [section_size]. rewrite nlen_cons, S. reflexivity. }
    intros rest. cbn [app read_byte bind]. unfold nlen. rewrite Nnat.Nat2N.id, D. reflexivity.
  - destruct H as (Ht & Hl & Hd & Hp). unfold rt_size. cbn [enc_section section_kind_of dec_section].
    unfold enc_deploy, enc_array, enc_u64, enc_uint. cbn [obind].
    eexists; split; [reflexivity|]. split.
    { cbn [section_size]. destruct Ht as [Ht _], Hd as [Hd _], Hp as [Hp _].
      rewrite !nlen_app, nlen_be. unfold nlen. rewrite Ht, Hd, Hp. reflexivity. }
    intros rest. rewrite <- !app_assoc. unfold dec_deploy.
    rewrite dec_array_app by exact Ht. cbn [bind]. rewrite dec_u64_app by auto. cbn [bind].
    rewrite dec_array_app by exact Hd. cbn [bind]. rewrite dec_array_app by exact Hp. cbn [bind].
    destruct d; reflexivity.
Qed.
Lemma section_rt s : section_wf s -> section_size s < 4294967295 ->
  rt_size enc_section (dec_section (section_kind_of s)) section_size s.
Proof. intros H Hz. apply section_rt_code; auto. intros c ->. cbn [section_size] in Hz. lia. Qed.

(** ** Collections *)
Lemma kind_eqb_spec a b : kind_eqb a b = true <-> a = b.
Proof. destruct a, b; cbv; split; congruence. Qed.
Lemma kind_eqb_refl a : kind_eqb a a = true.
Proof. now apply kind_eqb_spec. Qed.

Lemma buf_append_new k b l : ~ In k (map fst l) -> buf_append k b l = l ++ [(k, b)].
Proof.
  induction l as [|[k' b'] l IH]; cbn [buf_append map fst In app]; auto. intros H.
  destruct (kind_eqb k k') eqn:E; [apply kind_eqb_spec in E; subst; tauto|]. rewrite IH; tauto.
Qed.

Lemma enc_buffers_app l acc :
  Forall (fun s => section_wf s /\ section_size s < 4294967295) l ->
  NoDup (map fst acc ++ map section_kind_of l) ->
  exists bufs, enc_buffers l acc = Some (acc ++ bufs)
    /\ Forall2 (fun s kb => fst kb = section_kind_of s /\ enc_section s = Some (snd kb)) l bufs.
Proof.
  revert acc. induction l as [|s l IH]; intros acc Hw Hn; cbn [enc_buffers].
  - exists []. rewrite app_nil_r. auto.
  - inversion Hw as [|? ? [Hs Hz] Hl]; subst. destruct (section_rt s Hs Hz) as (b & E & _ & _).
    rewrite E. cbn [obind]. cbn [map] in Hn.
    assert (~ In (section_kind_of s) (map fst acc)).
    { apply NoDup_remove_2 in Hn. intros Hin. apply Hn, in_or_app. auto. }
    rewrite buf_append_new by auto.
    destruct (IH (acc ++ [(section_kind_of s, b)])) as (bufs & -> & F); auto.
    { rewrite map_app. cbn [map fst]. rewrite <- app_assoc. exact Hn. }
    exists ((section_kind_of s, b) :: bufs). rewrite <- app_assoc. split; auto.
Qed.

Lemma dec_kind_app k rest : dec_section_kind (be_bytes 2 (section_kind_code k) ++ rest) = Ok (k, rest).
Proof. destruct k; reflexivity. Qed.

Lemma dec_preview_app k n rest : uint_wf 32 n ->
  dec_preview ((be_bytes 2 (section_kind_code k) ++ be_bytes 4 n) ++ rest) = Ok ((k, n), rest).
Proof.
  intros H. unfold dec_preview. rewrite <- app_assoc, dec_kind_app. cbn [bind].
  rewrite dec_u32_app by auto. reflexivity.
Qed.

Lemma insert_section_new s l : ~ In (section_kind_of s) (map section_kind_of l) ->
  insert_section s l = l ++ [s].
Proof.
  induction l as [|y l IH]; cbn [insert_section map In app]; auto. intros H.
  destruct (kind_eqb _ _) eqn:E; [apply kind_eqb_spec in E; intuition congruence|]. rewrite IH; tauto.
Qed.

Definition keep (w : section_kind -> bool) (l : sections) : sections :=
  filter (fun s => w (section_kind_of s)) l.

Lemma enc_buf_inv k b p : enc_buf (k, b) = Some p ->
  nlen b < 4294967295 /\ p = (be_bytes 2 (section_kind_code k) ++ be_bytes 4 (nlen b)) ++ b.
Proof.
  unfold enc_buf, u32_max. destruct (N.ltb_spec (nlen b) 4294967295); [|discriminate].
  intros E. apply Some_inj in E. auto.
Qed.

Lemma enc_buf_some (k : section_kind) (b : bytes) : nlen b < 4294967295 ->
  enc_buf (k, b) = Some ((be_bytes 2 (section_kind_code k) ++ be_bytes 4 (nlen b)) ++ b).
Proof.
  intros H. unfold enc_buf, u32_max. destruct (N.ltb_spec (nlen b) 4294967295); [|lia]. reflexivity.
Qed.

Lemma enc_seq_cons_inv {A} (e : encoder A) x l bs : enc_seq e (x :: l) = Some bs ->
  exists a b, e x = Some a /\ enc_seq e l = Some b /\ bs = a ++ b.
Proof.
  cbn [enc_seq]. destruct (e x) as [a|]; cbn [obind]; [|discriminate].
  destruct (enc_seq e l) as [b|]; cbn [obind]; [|discriminate]. intros E. apply Some_inj in E. eauto.
Qed.

Lemma dec_loop_step w n acc bs k size r : dec_preview bs = Ok ((k, size), r) ->
  dec_sections_loop w (S n) acc bs =
  if w k then
    let* (s, r) := dec_section k r in dec_sections_loop w n (insert_section s acc) r
  else
    let* (_, r) := read_bytes (N.to_nat size) r in dec_sections_loop w n acc r.
Proof. intros H. cbn [dec_sections_loop]. rewrite H. reflexivity. Qed.

Lemma dec_loop_app w l bufs bs acc :
  Forall2 (fun s kb => fst kb = section_kind_of s /\ enc_section s = Some (snd kb)) l bufs ->
  Forall (fun s => section_wf s /\ section_size s < 4294967295) l ->
  NoDup (map section_kind_of acc ++ map section_kind_of l) ->
  enc_seq enc_buf bufs = Some bs ->
  forall rest, dec_sections_loop w (length l) acc (bs ++ rest) = Ok (acc ++ keep w l, rest).
Proof.
  intros F. revert bs acc. induction F as [|s [k b] l bufs [Hk Hb] F IH]; intros bs acc Hw Hn He rest.
  - injection He as <-. cbn. now rewrite app_nil_r.
  - inversion Hw as [|? ? [Hs Hz] Hl]; subst. cbn [fst snd] in Hk, Hb. subst k.
    destruct (section_rt s Hs Hz) as (b' & E' & Sz & D).
    rewrite Hb in E'. apply Some_inj in E'. subst b'.
    apply enc_seq_cons_inv in He as (p & bs' & Ep & Eb & ->).
    apply enc_buf_inv in Ep as [Hlen ->].
    cbn [length]. rewrite <- !(app_assoc (be_bytes 2 _ ++ be_bytes 4 _)).
    rewrite (dec_loop_step _ _ _ _ (section_kind_of s) (nlen b) (b ++ bs' ++ rest)).
    2:{ rewrite <- (app_assoc b). apply dec_preview_app. red. lia. }
    unfold keep. cbn [filter]. fold (keep w l).
    assert (Hni : ~ In (section_kind_of s) (map section_kind_of acc)).
    { cbn [map] in Hn. apply NoDup_remove_2 in Hn. intros Hin. apply Hn, in_or_app. auto. }
    destruct (w (section_kind_of s)).
    + rewrite D. cbn [bind]. rewrite insert_section_new by auto.
      rewrite (IH bs'); auto.
      * now rewrite <- app_assoc.
      * rewrite map_app. cbn [map]. rewrite <- app_assoc. exact Hn.
    + rewrite read_bytes_app_n by (unfold nlen; lia). cbn [bind].
      apply IH; auto. cbn [map] in Hn. eapply NoDup_remove_1; eauto.
Qed.

Lemma F2_length {A B} (R : A -> B -> Prop) l l' : Forall2 R l l' -> length l = length l'.
Proof. induction 1; cbn; congruence. Qed.

Lemma kinds_bound l : NoDup (map section_kind_of l) -> (length l <= 7)%nat.
Proof.
  intros H. rewrite <- (map_length section_kind_of).
  apply (NoDup_incl_length H (l' := [KCode; KData; KCtors; KSchema; KApi; KHeader; KDeploy])).
  intros k _. destruct k; cbn; tauto.
Qed.

Lemma sections_rt l : sections_wf l ->
  exists bs, enc_sections l = Some bs /\
    nlen bs = 2 + total (map (fun s => 6 + section_size s) l) /\
    forall interests rest, dec_sections interests (bs ++ rest) = Ok (keep (wants interests) l, rest).
Proof.
  intros [Hn Hw]. unfold enc_sections.
  destruct (enc_buffers_app l [] Hw Hn) as (bufs & -> & F). cbn [obind app].
  pose proof (kinds_bound l Hn) as Hb. pose proof (F2_length _ _ _ F) as Hlen.
  unfold finish, u16_max. destruct (N.ltb_spec (nlen bufs) 65535); [|unfold nlen in *; lia].
  assert (exists b, enc_seq enc_buf bufs = Some b /\ nlen b = total (map (fun s => 6 + section_size s) l)) as (b & E & Sz).
  { clear - Hw F. induction F as [|s [k b] l bufs [Hk Hb] F IH]; [exists []; auto|].
    inversion Hw as [|? ? [Hs Hz] Hl]; subst. cbn [fst snd] in *. subst k.
    destruct (section_rt s Hs Hz) as (b' & E' & Sz & D). rewrite Hb in E'. apply Some_inj in E'. subst b'.
    destruct (IH Hl) as (bs & E & Sz'). cbn [enc_seq].
    rewrite (enc_buf_some (section_kind_of s) b) by lia. cbn [obind]. rewrite E. cbn [obind].
    eexists; split; [reflexivity|]. cbn [map]. rewrite total_cons, <- Sz', !nlen_app, !nlen_be, Sz. lia. }
  rewrite E. cbn [obind]. eexists; split; [reflexivity|]. split.
  { rewrite nlen_app, nlen_be, Sz. reflexivity. }
  intros interests rest. unfold dec_sections. rewrite <- app_assoc.
  rewrite dec_u16_app by (red; unfold nlen in *; lia). cbn [bind].
  unfold nlen. rewrite Nnat.Nat2N.id, <- Hlen.
  apply (dec_loop_app (wants interests) l bufs b []); auto.
Qed.

Lemma keep_all l : keep (wants None) l = l.
Proof. unfold keep. induction l as [|a l IH]; [reflexivity|]. cbn [filter wants]. f_equal. exact IH. Qed.

Lemma has_section_in k l : has_section k l = true <-> In k (map section_kind_of l).
Proof.
  unfold has_section. rewrite existsb_exists, in_map_iff. split.
  - intros (s & Hs & E). apply kind_eqb_spec in E. eauto.
  - intros (s & E & Hs). exists s. split; auto. apply kind_eqb_spec. congruence.
Qed.

Lemma template_rt l : sections_wf l ->
  In KCode (map section_kind_of l) -> In KData (map section_kind_of l) -> In KCtors (map section_kind_of l) ->
  exists bs, enc_sections l = Some bs /\ forall rest, dec_template None (bs ++ rest) = Ok (l, rest).
Proof.
  intros H H1 H2 H3. destruct (sections_rt l H) as (bs & E & _ & D).
  exists bs. split; auto. intros rest. unfold dec_template. rewrite D, keep_all. cbn [bind].
  apply has_section_in in H1, H2, H3. now rewrite H1, H2, H3.
Qed.

Lemma mandatory_sections interests bs :
  (forall l rest, dec_template interests bs = Ok (l, rest) <->
     dec_sections interests bs = Ok (l, rest)
     /\ forall k, In k [KCode; KData; KCtors] -> In k (map section_kind_of l))
  /\ (forall l rest k, dec_sections interests bs = Ok (l, rest) -> In k [KCode; KData; KCtors] ->
       ~ In k (map section_kind_of l) -> dec_template interests bs = Err InvalidSection).
Proof.
  assert (A : forall l, has_section KCode l && has_section KData l && has_section KCtors l = true
            <-> forall k, In k [KCode; KData; KCtors] -> In k (map section_kind_of l)).
  { intros l. rewrite !andb_true_iff, !has_section_in. split.
    - intros [[? ?] ?] k [<-|[<-|[<-|[]]]]; auto.
    - intros H. repeat split; apply H; cbn; auto. }
  unfold dec_template. destruct (dec_sections interests bs) as [[l0 r0]|?|]; cbn [bind]; split; try discriminate.
  - intros l rest. destruct (_ && _) eqn:E.
    + split; [intros [= <- <-]; split; auto; now apply A|]. intros [H _]. exact H.
    + split; [discriminate|]. intros [[= -> ->] H]. apply A in H. congruence.
  - intros l rest k [= <- <-] Hk Hn. destruct (_ && _) eqn:E; auto. rewrite A in E. now destruct (Hn (E k Hk)).
  - intros l rest. split; [discriminate|]. intros [H _]. discriminate.
  - intros l rest. split; [discriminate|]. intros [H _]. discriminate.
Qed.

(** ** Robustness *)
Lemma np_kind : never_panics dec_section_kind.
Proof.
  unfold dec_section_kind. apply (np_bind dec_u16 (fun n r => if n =? 1 then _ else _)); [apply np_uint|].
  intros n. repeat match goal with |- never_panics (fun r => if ?b then _ else _) => destruct b end;
    try apply np_ret. apply np_err.
Qed.

Lemma np_preview : never_panics dec_preview.
Proof.
  unfold dec_preview. apply (np_bind dec_section_kind (fun k r => let* (n, r) := dec_u32 r in _)); [apply np_kind|].
  intros k. apply (np_bind dec_u32 (fun n r => Ok (_, r))); [apply np_uint|]. intros; apply np_ret.
Qed.

Lemma np_seq_of {A} (d : decoder A) n : never_panics d -> never_panics (dec_seq d n).
Proof. intros H bs. destruct (dec_seq_cases d n bs H) as [?|(l & p & r & ? & ?)]; eauto 6. Qed.

Lemma np_plain_section k : k = KHeader \/ k = KCtors \/ k = KDeploy -> never_panics (dec_section k).
Proof.
  intros [->|[->| ->]]; unfold dec_section.
  - apply (np_bind dec_header_section (fun x r => Ok (_, r))); [|intros; apply np_ret].
    unfold dec_header_section.
    apply (np_bind dec_u32 (fun k r => let* (n, r) := dec_string r in _)); [apply np_uint|intros a].
    apply (np_bind dec_string (fun k r => let* (n, r) := dec_string r in _)); [apply np_string|intros b].
    apply (np_bind dec_string (fun n r => Ok (_, r))); [apply np_string|]. intros; apply np_ret.
  - apply (np_bind dec_ctors (fun x r => Ok (_, r))); [|intros; apply np_ret].
    apply (np_bind read_byte (fun n => dec_seq dec_string (N.to_nat n))); [apply np_read_byte|].
    intros; apply np_seq_of, np_string.
  - apply (np_bind dec_deploy (fun x r => Ok (_, r))); [|intros; apply np_ret].
    unfold dec_deploy.
    apply (np_bind (dec_array TXID_LEN) (fun k r => let* (n, r) := dec_u64 r in _)); [apply np_read_bytes|intros a].
    apply (np_bind dec_u64 (fun k r => let* (n, r) := dec_array ADDRESS_LEN r in _)); [apply np_uint|intros b].
    apply (np_bind (dec_array ADDRESS_LEN) (fun k r => let* (n, r) := dec_array ADDRESS_LEN r in _)); [apply np_read_bytes|intros c].
    apply (np_bind (dec_array ADDRESS_LEN) (fun n r => Ok (_, r))); [apply np_read_bytes|]. intros; apply np_ret.
Qed.

Lemma np_sections_plain interests :
  (forall k, In k interests -> k = KHeader \/ k = KCtors \/ k = KDeploy) ->
  never_panics (dec_sections (Some interests)).
Proof.
  intros Hi. apply (np_bind dec_u16 (fun n => dec_sections_loop (wants (Some interests)) (N.to_nat n) [])); [apply np_uint|].
  intros m. generalize (N.to_nat m). intros n. generalize (@nil section). induction n; intros acc; [apply np_ret|].
  cbn [dec_sections_loop].
  apply (np_bind dec_preview (fun p r => if wants (Some interests) (fst p) then _ else _)); [apply np_preview|].
  intros [k size]. cbn [fst snd]. destruct (wants (Some interests) k) eqn:W.
  - apply (np_bind (dec_section k) (fun s => dec_sections_loop _ n (insert_section s acc))); auto.
    apply np_plain_section, Hi. cbn [wants] in W. apply existsb_exists in W as (k' & Hk & E).
    apply kind_eqb_spec in E. congruence.
  - apply (np_bind (read_bytes (N.to_nat size)) (fun _ => dec_sections_loop _ n acc)); auto.
    apply np_read_bytes.
Qed.
