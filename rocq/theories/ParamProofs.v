(** Proofs about parameters of every type. *)
From Coq Require Import List NArith ZArith Arith Bool Lia.
From Coq Require Import ZifyBool ZifyNat ZifyN.
From Verif Require Import Base StorageModel SectionModel ReceiptModel GlobalModel GlobalProofs RuntimeModel RuntimeProofs.
From Verif Require Import SdkModel SdkSpec SdkProofs AbiModel AbiSpec AbiProofs TypedModel TypedProofs EndpointModel EndpointSpec EndpointProofs ParamModel ParamSpec.
From Verif Require JsonProofs.
Import ListNotations.
Open Scope list_scope.
Open Scope N_scope.

(** The code does not complete. *)
Definition fails {A} (e : env) (m : code A) (mem : bytes) (f : func_env) (g : gstate) : Prop :=
  forall x g', run_wasm e (m mem) f g <> (Ok x, g').
Lemma fails_first {A B} e (m : code A) (k : A -> code B) mem f g : fails e m mem f g -> fails e (cbind m k) mem f g.
Proof.
  unfold fails, cbind. intros H x g'. rewrite run_wbind. destruct (run_wasm e (m mem) f g) as [[[[m1 a] f1]|?|] g1] eqn:E; try discriminate.
  exfalso. exact (H _ _ eq_refl).
Qed.
Lemma fails_next {A B} e (m : code A) (k : A -> code B) mem f g a mem1 f1 g1 : ends e m mem f g a mem1 f1 g1 -> fails e (k a) mem1 f1 g1 ->
  fails e (cbind m k) mem f g.
Proof. intros E F x g'. rewrite (bind_ends e m k mem f g a mem1 f1 g1 E). apply F. Qed.
Lemma bind_inv {A B} e (m : code A) (k : A -> code B) mem f g x g' : run_wasm e (cbind m k mem) f g = (Ok x, g') ->
  exists a mem1 f1 g1, ends e m mem f g a mem1 f1 g1 /\ run_wasm e (k a mem1) f1 g1 = (Ok x, g').
Proof.
  unfold cbind, ends. rewrite run_wbind. destruct (run_wasm e (m mem) f g) as [[[[m1 a] f1]|?|] g1]; try discriminate. eauto 8.
Qed.

Lemma cursor_ends e lo input hi base offset f g : nlen lo = base ->
  ends e (cursor_at base (nlen input) offset) (lo ++ input ++ hi) f g (mkCursor input offset) (lo ++ input ++ hi) f g.
Proof. intros E. unfold ends, cursor_at, cbind, mread. rewrite read_at by auto. reflexivity. Qed.
Lemma dec_ends {A} e (d : dec A) a mem f g : d = Ok a -> ends e (cdec d) mem f g a mem f g.
Proof. intros ->. apply ends_ret. Qed.
Lemma some_ends {A} e (o : option A) a mem f g : o = Some a -> ends e (csome o) mem f g a mem f g.
Proof. intros ->. apply ends_ret. Qed.

(** Writing behind the arguments leaves them as they are. *)
Lemma write_behind lo hi q bs : nlen lo <= q ->
  (exists hi', mem_write (lo ++ hi) q bs = Some (lo ++ hi') /\ nlen hi' = nlen hi)
  \/ mem_write (lo ++ hi) q bs = None /\ nlen lo + nlen hi < q + nlen bs.
Proof.
  intros L. unfold mem_write. rewrite nlen_app. destruct (N.leb_spec (q + nlen bs) (nlen lo + nlen hi)); [left|right; split; [reflexivity|lia]].
  eexists. split.
  - f_equal. rewrite firstn_app, <- app_assoc. unfold nlen in L. rewrite (firstn_all2 lo) by lia. reflexivity.
  - rewrite !nlen_app. unfold nlen in *. rewrite !skipn_length, !firstn_length, app_length. lia.
Qed.

(** Where the elements of an array stand. *)
Fixpoint positions (q : N) (ps : list primitive) : list (N * primitive) :=
  match ps with [] => [] | p :: ps' => (q, p) :: positions (q + nlen (prim_format p)) ps' end.
Lemma positions_length q ps : nlen (positions q ps) = nlen ps.
Proof. revert q. induction ps as [|p ps IH]; intros q; [reflexivity|]. cbn [positions]. now rewrite !nlen_cons, IH. Qed.
Lemma elements_run e vl lo base cap p : vlayout_wf vl -> nlen lo = base -> forall ps pre rest hi i f g,
  Forall prim_ok ps -> (ps = [] \/ base + nlen (pre ++ formats ps ++ rest) <= p) -> i + nlen ps <= cap ->
  let input := pre ++ formats ps ++ rest in
  (exists hi', ends e (read_elements vl base (nlen input) p cap (length ps) i (nlen pre)) (lo ++ input ++ hi) f g
      (positions (base + nlen pre) ps, nlen pre + nlen (formats ps)) (lo ++ input ++ hi') f g /\ nlen hi' = nlen hi)
  \/ fails e (read_elements vl base (nlen input) p cap (length ps) i (nlen pre)) (lo ++ input ++ hi) f g
     /\ nlen (lo ++ input ++ hi) < p + (i + nlen ps) * vl_size vl.
Proof.
  intros [_ Wl] Lo. induction ps as [|v ps IH]; intros pre rest hi i f g O C Cap input.
  - left. exists hi. split; [|reflexivity]. cbn [length read_elements positions]. unfold formats. cbn [flat_map]. change (nlen (@nil N)) with 0. rewrite N.add_0_r. apply ends_ret.
  - inversion_clear O as [|? ? Ov O']. destruct C as [C|C]; [discriminate C|]. rewrite nlen_cons in Cap. cbn [length read_elements].
    assert (Ei : input = pre ++ prim_format v ++ formats ps ++ rest) by (unfold input, formats; cbn [flat_map]; now rewrite <- !app_assoc).
    assert (Ei' : input = (pre ++ prim_format v) ++ formats ps ++ rest) by (rewrite Ei; now rewrite <- !app_assoc).
    fold input in C. clearbody input.
    pose proof (cursor_ends e lo input hi base (nlen pre) f g Lo) as E1.
    assert (E2 : decode_primitive (mkCursor input (nlen pre)) = Ok (v, at_ (pre ++ prim_format v) (formats ps ++ rest))) by (rewrite Ei; exact (decode_prim_ok v pre (formats ps ++ rest) Ov)).
    replace (i <? cap) with true by lia.
    set (q := p + i * vl_size vl). set (bs := vl_bytes vl (base + nlen pre) v).
    assert (Hq : nlen (lo ++ input) <= q) by (rewrite nlen_app; unfold q; lia).
    destruct (write_behind (lo ++ input) hi q bs Hq) as [(hi1 & Ew & Lh)|[Ew Lt]]; rewrite <- !app_assoc in Ew.
    + assert (E3 : ends e (mwrite q bs) (lo ++ input ++ hi) f g tt (lo ++ input ++ hi1) f g) by (unfold ends, mwrite; rewrite Ew; reflexivity).
      destruct (IH (pre ++ prim_format v) rest hi1 (i + 1) f g O') as [(hi2 & E4 & Lh2)|[F4 Lt]]; [right; rewrite <- Ei'; exact C|lia| |].
      * left. exists hi2. split; [|lia]. cbv zeta in E4. rewrite <- Ei' in E4.
        eapply ends_bind; [exact E1|]. eapply ends_bind; [apply dec_ends; exact E2|]. eapply ends_bind; [exact E3|].
        eapply ends_bind; [unfold at_; cbn [cu_offset]; exact E4|].
        unfold formats. cbn [positions flat_map]. rewrite !nlen_app, !N.add_assoc. apply ends_ret.
      * right. cbv zeta in F4. rewrite <- Ei' in F4, Lt. rewrite nlen_cons. split; [|rewrite !nlen_app in *; lia].
        eapply fails_next; [exact E1|]. eapply fails_next; [apply dec_ends; exact E2|]. eapply fails_next; [exact E3|]. apply fails_first. exact F4.
    + right. rewrite nlen_cons. split; [|rewrite !nlen_app in *; unfold q, bs in Lt; rewrite Wl in Lt; lia].
      eapply fails_next; [exact E1|]. eapply fails_next; [apply dec_ends; exact E2|]. apply fails_first.
      change (fails e (mwrite q bs) (lo ++ input ++ hi) f g). intros x g'. unfold mwrite. rewrite Ew. discriminate.
Qed.
Lemma held_prim_ok lo hi position t p : prim_typed t p -> nlen lo = position ->
  exists h, held_prim t position p = Some h /\ denotes (lo ++ prim_format p ++ hi) h p /\ held_below (position + nlen (prim_format p)) h.
Proof.
  intros T E. unfold held_prim, into_prim. rewrite (prim_is_typed t p T). cbn [obind]. now apply (held_at_denotes lo hi position t).
Qed.
Lemma held_prims_ok t ps : Forall (prim_typed t) ps -> forall lo hi, exists hs, held_prims t (positions (nlen lo) ps) = Some hs
  /\ Forall2 (denotes (lo ++ formats ps ++ hi)) hs ps /\ Forall (held_below (nlen lo + nlen (formats ps))) hs.
Proof.
  induction 1 as [|p ps T _ IH]; intros lo hi; [exists []; split; [reflexivity|split; constructor]|].
  cbn [positions held_prims]. unfold formats. cbn [flat_map]. fold (formats ps).
  destruct (held_prim_ok lo (formats ps ++ hi) (nlen lo) t p T eq_refl) as (h & -> & D & B). cbn [obind].
  destruct (IH (lo ++ prim_format p) hi) as (hs & Eh & Dh & Bh). rewrite nlen_app in Eh, Bh. rewrite Eh. cbn [obind]. exists (h :: hs). split; [reflexivity|].
  rewrite <- !app_assoc in *. rewrite nlen_app. split; [constructor; assumption|]. constructor; [|eapply Forall_impl; [|exact Bh]; intros x; destruct x; cbn [held_below]; lia].
  destruct h; cbn [held_below] in *; try exact Logic.I. lia.
Qed.

Lemma array_count_mark n : n <= 10 -> array_count (array_mark n) = Ok n.
Proof.
  intros L. assert (I : In n [0;1;2;3;4;5;6;7;8;9;10]) by (cbn; lia).
  cbn [In] in I; repeat (destruct I as [<-|I]; [reflexivity|]); contradiction.
Qed.
Lemma array_mark_cap n : n <= 10 -> n <> 8 -> n <= array_mark n /\ (0 < n -> 22 <= array_mark n) /\ 0 < array_mark n.
Proof.
  intros L N8. assert (I : In n [0;1;2;3;4;5;6;7;9;10]) by (cbn; lia).
  cbn [In] in I; repeat (destruct I as [<-|I]; [vm_compute; repeat split; intros; discriminate|]); contradiction.
Qed.
(** Only the memory in use differs. *)
Definition only_used (f f' : func_env) : Prop := f' = with_used (fe_used f') f.
Lemma only_used_refl f : only_used f f.
Proof. destruct f; reflexivity. Qed.
Lemma only_used_trans a b c : only_used a b -> only_used b c -> only_used a c.
Proof. unfold only_used. intros Hb Hc. rewrite Hb in Hc. rewrite Hc. reflexivity. Qed.

(** One parameter. *)
Lemma arg_run e vl lo base t v : vlayout_wf vl -> nlen lo = base -> typed t v -> (forall p, t <> YArray p 8) ->
  forall pre rest hi f g, fe_memory f = true -> base <= fe_used f ->
  let input := pre ++ format (rust_value v) ++ rest in
  nlen (lo ++ input ++ hi) < 2 ^ 32 -> (nlen input <= 22 * vl_size vl \/ forall p k, t = YArray p k -> k = 0) ->
  (exists h hi' f', ends e (read_arg vl base (nlen input) t (nlen pre)) (lo ++ input ++ hi) f g
      (h, nlen pre + nlen (format (rust_value v))) (lo ++ input ++ hi') f' g /\ nlen hi' = nlen hi
      /\ only_used f f' /\ fe_used f' = fe_used f + reserved vl t
      /\ (forall hi, stands (lo ++ input ++ hi) h v) /\ below (base + nlen pre + nlen (format (rust_value v))) h)
  \/ fails e (read_arg vl base (nlen input) t (nlen pre)) (lo ++ input ++ hi) f g
     /\ nlen (lo ++ input ++ hi) < fe_used f + reserved vl t + 10 * vl_size vl.
Proof.
  intros W Lo T N8 pre rest hi f g Hm Hu input L Sh.
  assert (Prim : forall p, prim_ok p -> rust_value v = VPrim p ->
    (exists h, prim_arg t (base + nlen pre) p = Some h /\ (forall hi, stands (lo ++ input ++ hi) h v) /\ below (base + nlen pre + nlen (prim_format p)) h) ->
    reserved vl t = 0 ->
    exists h hi' f', ends e (read_arg vl base (nlen input) t (nlen pre)) (lo ++ input ++ hi) f g
      (h, nlen pre + nlen (format (rust_value v))) (lo ++ input ++ hi') f' g /\ nlen hi' = nlen hi
      /\ only_used f f' /\ fe_used f' = fe_used f + reserved vl t
      /\ (forall hi, stands (lo ++ input ++ hi) h v) /\ below (base + nlen pre + nlen (format (rust_value v))) h).
  { intros p Op Ev (h & Eh & Sd & Bl) R0. exists h, hi, f. rewrite Ev. cbn [format]. split; [|rewrite R0, N.add_0_r; repeat (split; [first [reflexivity|apply only_used_refl|exact Sd]|]); exact Bl].
    assert (Ei : input = pre ++ prim_format p ++ rest) by (unfold input; now rewrite Ev).
    pose proof (cursor_ends e lo input hi base (nlen pre) f g Lo) as E1. unfold read_arg. eapply ends_bind; [exact E1|].
    assert (Ea : mkCursor input (nlen pre) = at_ pre (prim_format p ++ rest)) by (unfold at_; now rewrite Ei).
    rewrite Ea, at_eof. destruct (prim_format_nonempty p) as (b & bs & Eb).
    replace (match prim_format p ++ rest with [] => true | _ :: _ => false end) with false by (now rewrite Eb).
    eapply ends_bind; [apply dec_ends, peek_prim, Op|].
    assert (X : ends e (let~ (v0, c') := cdec (decode_primitive (at_ pre (prim_format p ++ rest))) in
        let~ h0 := csome (prim_arg t (base + nlen pre) v0) in cret (h0, cu_offset c')) (lo ++ input ++ hi) f g (h, nlen pre + nlen (prim_format p)) (lo ++ input ++ hi) f g).
    { eapply ends_bind; [apply dec_ends, decode_prim_ok, Op|]. eapply ends_bind; [apply some_ends; exact Eh|]. unfold at_. cbn [cu_offset]. rewrite nlen_app. apply ends_ret. }
    destruct p; exact X. }
  assert (Pos : nlen (lo ++ pre) = base + nlen pre) by (rewrite nlen_app; lia).
  destruct t as [|t|t|t n], v as [|p|[p|]|ps]; try contradiction T.
  - left. apply (Prim PUnit Logic.I eq_refl); [|reflexivity]. exists HUnit. repeat split.
  - left. apply (Prim p (proj1 T) eq_refl); [|reflexivity].
    destruct (held_prim_ok (lo ++ pre) rest (base + nlen pre) t p T Pos) as (h & Eh & _ & Bl). exists (HVal h). cbn [prim_arg]. rewrite Eh. split; [reflexivity|]. split; [|exact Bl].
    intros hi0. destruct (held_prim_ok (lo ++ pre) (rest ++ hi0) (base + nlen pre) t p T Pos) as (h' & Eh' & D & _). assert (h' = h) as -> by congruence.
    cbn [stands]. unfold input. cbn [rust_value format]. rewrite <- !app_assoc in *. exact D.
  - left. apply (Prim p (proj1 T) eq_refl); [|reflexivity].
    destruct (held_prim_ok (lo ++ pre) rest (base + nlen pre) t p T Pos) as (h & Eh & _ & Bl). exists (HOpt (Some h)). cbn [prim_arg]. rewrite Eh. split; [|split; [|exact Bl]].
    { destruct p; try reflexivity. destruct (prim_typed_not_none _ _ T eq_refl). }
    intros hi0. destruct (held_prim_ok (lo ++ pre) (rest ++ hi0) (base + nlen pre) t p T Pos) as (h' & Eh' & D & _). assert (h' = h) as -> by congruence.
    cbn [stands]. unfold input. cbn [rust_value format]. rewrite <- !app_assoc in *. exact D.
  - left. apply (Prim PNone Logic.I eq_refl); [|reflexivity]. exists (HOpt None). repeat split.
  - clear Prim. destruct T as (En & L10 & F). assert (n8 : n <> 8) by (intros ->; exact (N8 t eq_refl)).
    destruct (array_mark_cap n L10 n8) as (Mc & M22 & Mp). destruct W as [Wp Wl].
    assert (Ev : format (rust_value (RArray ps)) = array_mark n :: formats ps).
    { cbn [rust_value format]. rewrite flat_map_prims. f_equal. unfold nlen in *. now rewrite map_length, En. }
    assert (Op : Forall prim_ok ps) by (eapply Forall_impl; [|exact F]; intros p [O _]; exact O).
    rewrite Ev in *. set (m := array_mark n) in *. cbn [reserved]. fold m.
    assert (Ei : input = (pre ++ [m]) ++ formats ps ++ rest) by (unfold input; rewrite ?Ev, <- !app_assoc; reflexivity).
    assert (Ei2 : input = pre ++ m :: (formats ps ++ rest)) by (rewrite Ei, <- app_assoc; reflexivity).
    pose proof (cursor_ends e lo input hi base (nlen pre) f g Lo) as E1.
    assert (Ea : mkCursor input (nlen pre) = at_ pre (m :: (formats ps ++ rest))) by (unfold at_; now rewrite Ei2).
    assert (E2 : is_eof (mkCursor input (nlen pre)) = false) by (rewrite Ea, at_eof; reflexivity).
    assert (E3 : peek_kind (mkCursor input (nlen pre)) = Ok KArray) by (rewrite Ea; unfold peek_kind; rewrite at_peek; exact (kind_array n L10)).
    assert (E4 : cu_read_byte (mkCursor input (nlen pre)) = Ok (m, at_ (pre ++ [m]) (formats ps ++ rest))) by (rewrite Ea; apply at_read_byte).
    pose proof (alloc_run e (m * vl_size vl) (lo ++ input ++ hi) f g L) as E5. rewrite Hm in E5. replace (0 <? m * vl_size vl) with true in E5 by nia. cbn [andb] in E5.
    unfold read_arg.
    destruct (N.leb_spec (fe_used f + m * vl_size vl) (nlen (lo ++ input ++ hi))).
    2:{ right. split; [|lia]. eapply fails_next; [exact E1|]. rewrite E2. eapply fails_next; [apply dec_ends; exact E3|]. cbv iota.
        eapply fails_next; [apply dec_ends; exact E4|]. cbv beta iota. apply fails_first. intros x g'. rewrite E5. discriminate. }
    set (f1 := with_used (fe_used f + m * vl_size vl) f) in *.
    assert (E6 : array_count m = Ok n) by (apply array_count_mark; exact L10).
    destruct (elements_run e vl lo base m (fe_used f + m * vl_size vl) (conj Wp Wl) Lo ps (pre ++ [m]) rest hi 0 f1 g Op) as [(hi1 & E7 & Lh)|[F7 Lt]].
    + rewrite <- Ei. destruct ps as [|p ps]; [left; reflexivity|right]. rewrite nlen_cons in En. destruct Sh as [Sh|Sh]; [|specialize (Sh t n eq_refl); lia].
      specialize (M22 ltac:(lia)). nia.
    + lia.
    + left. cbv zeta in E7. rewrite <- Ei in E7.
      destruct (held_prims_ok t ps F (lo ++ pre ++ [m]) []) as (hs & Eh & _ & Bh).
      assert (Pos2 : nlen (lo ++ pre ++ [m]) = base + nlen (pre ++ [m])) by (rewrite !nlen_app; lia). rewrite Pos2 in Eh, Bh.
      exists (HArr hs), hi1, f1. split; [|split; [exact Lh|split; [reflexivity|split; [reflexivity|split]]]].
      * eapply ends_bind; [exact E1|]. rewrite E2. eapply ends_bind; [apply dec_ends; exact E3|]. cbv iota. eapply ends_bind; [apply dec_ends; exact E4|]. cbv beta iota.
        eapply ends_bind; [exact E5|]. eapply ends_bind; [apply dec_ends; exact E6|].
        replace (N.to_nat n) with (length ps) by (unfold nlen in En; lia). eapply ends_bind; [exact E7|]. cbv beta iota.
        eapply ends_bind; [apply some_ends|].
        { cbn [array_arg]. rewrite positions_length, En, N.eqb_refl. cbn [ensure obind]. rewrite Eh. reflexivity. }
        replace (nlen pre + nlen (m :: formats ps)) with (nlen (pre ++ [m]) + nlen (formats ps)) by (rewrite nlen_app, !nlen_cons; change (nlen (@nil N)) with 0; lia). apply ends_ret.
      * intros hi0. cbn [stands]. destruct (held_prims_ok t ps F (lo ++ pre ++ [m]) (rest ++ hi0)) as (hs' & Eh' & D & _). rewrite Pos2 in Eh'. assert (hs' = hs) as -> by congruence.
        rewrite Ei. replace (lo ++ ((pre ++ [m]) ++ formats ps ++ rest) ++ hi0) with ((lo ++ pre ++ [m]) ++ formats ps ++ rest ++ hi0) by (now rewrite <- !app_assoc). exact D.
      * cbn [below]. rewrite nlen_app in Bh. change (nlen [m]) with 1 in Bh. rewrite nlen_cons. eapply Forall_impl; [|exact Bh]. intros h; destruct h; cbn [held_below]; lia.
    + right. cbv zeta in F7. rewrite <- Ei in F7, Lt. split; [|nia].
      eapply fails_next; [exact E1|]. rewrite E2. eapply fails_next; [apply dec_ends; exact E3|]. cbv iota. eapply fails_next; [apply dec_ends; exact E4|]. cbv beta iota.
      eapply fails_next; [exact E5|]. eapply fails_next; [apply dec_ends; exact E6|]. 
      replace (N.to_nat n) with (length ps) by (unfold nlen in En; lia). apply fails_first. exact F7.
Qed.

(** All parameters. *)
Lemma all_run e vl lo base : vlayout_wf vl -> nlen lo = base -> forall ts vs, Forall2 typed ts vs -> no_eights ts ->
  forall pre rest hi f g, fe_memory f = true -> base <= fe_used f ->
  let input := pre ++ answer vs ++ rest in
  nlen (lo ++ input ++ hi) < 2 ^ 32 -> short vl ts (nlen input) ->
  (exists hs hi' f', ends e (read_all vl base (nlen input) ts (nlen pre)) (lo ++ input ++ hi) f g hs (lo ++ input ++ hi') f' g
      /\ nlen hi' = nlen hi /\ only_used f f' /\ fe_used f' = fe_used f + reserved_all vl ts
      /\ (forall hi, Forall2 (stands (lo ++ input ++ hi)) hs vs) /\ Forall (below (base + nlen pre + nlen (answer vs))) hs)
  \/ fails e (read_all vl base (nlen input) ts (nlen pre)) (lo ++ input ++ hi) f g
     /\ nlen (lo ++ input ++ hi) < fe_used f + reserved_all vl ts + 10 * vl_size vl.
Proof.
  intros W Lo. induction 1 as [|t v ts vs T _ IH]; intros N8 pre rest hi f g Hm Hu input L Sh.
  - left. exists [], hi, f. split; [apply ends_ret|]. cbn [reserved_all fold_right]. rewrite N.add_0_r.
    split; [reflexivity|]. split; [apply only_used_refl|]. split; [reflexivity|]. split; constructor.
  - inversion_clear N8 as [|? ? N1 N2]. cbn [read_all]. change (reserved_all vl (t :: ts)) with (reserved vl t + reserved_all vl ts).
    assert (Ei : input = pre ++ format (rust_value v) ++ answer vs ++ rest) by (unfold input, answer; cbn [map flat_map]; now rewrite <- !app_assoc).
    assert (Ei' : input = (pre ++ format (rust_value v)) ++ answer vs ++ rest) by (rewrite Ei; now rewrite <- !app_assoc).
    assert (Ea : nlen (answer (v :: vs)) = nlen (format (rust_value v)) + nlen (answer vs)) by (unfold answer; cbn [map flat_map]; apply nlen_app).
    assert (Sh1 : nlen input <= 22 * vl_size vl \/ (forall p k, t = YArray p k -> k = 0)) by (destruct Sh as [Sh|Sh]; [left; exact Sh|right; inversion_clear Sh; auto]).
    assert (Sh2 : short vl ts (nlen input)) by (destruct Sh as [Sh|Sh]; [left; exact Sh|right; inversion_clear Sh; auto]).
    clearbody input.
    pose proof (arg_run e vl lo base t v W Lo T N1 pre (answer vs ++ rest) hi f g Hm Hu) as A. cbv zeta in A. rewrite <- Ei in A. specialize (A L Sh1).
    destruct A as [(h & hi1 & f1 & E1 & Lh & Ou & Us & Sd & Bl)|[F1 Lt]].
    2:{ right. split; [apply fails_first; exact F1|lia]. }
    assert (Hm1 : fe_memory f1 = true) by (rewrite Ou; exact Hm).
    assert (L1 : nlen (lo ++ input ++ hi1) < 2 ^ 32) by (rewrite !nlen_app in *; lia).
    pose proof (IH N2 (pre ++ format (rust_value v)) rest hi1 f1 g Hm1 ltac:(lia)) as B. cbv zeta in B. rewrite <- Ei' in B. specialize (B L1 Sh2). rewrite nlen_app in B.
    destruct B as [(hs & hi2 & f2 & E2 & Lh2 & Ou2 & Us2 & Sd2 & Bl2)|[F2 Lt]].
    + left. exists (h :: hs), hi2, f2. split; [|split; [lia|split; [eapply only_used_trans; eauto|split; [lia|split]]]].
      * eapply ends_bind; [exact E1|]. cbv beta iota. eapply ends_bind; [exact E2|]. apply ends_ret.
      * intros hi0. constructor; [apply Sd|apply Sd2].
      * rewrite Ea. constructor; [|eapply Forall_impl; [|exact Bl2]]; [revert Bl|intros x]; [|destruct x as [|y|[y|]|l]; cbn [below]; auto; try (destruct y; cbn [held_below]; lia)].
        -- destruct h as [|y|[y|]|l]; cbn [below]; auto; try (destruct y; cbn [held_below]; lia). apply Forall_impl. intros y; destruct y; cbn [held_below]; lia.
        -- apply Forall_impl. intros y; destruct y; cbn [held_below]; lia.
    + right. split; [|rewrite !nlen_app in *; lia]. eapply fails_next; [exact E1|]. cbv beta iota. apply fails_first. exact F2.
Qed.

(* ------------------------------------------------------------------------------------ *)
(** * What was read are values of the types *)

Lemma cursor_inv e lo input hi base offset f g c mem f1 g1 : nlen lo = base ->
  ends e (cursor_at base (nlen input) offset) (lo ++ input ++ hi) f g c mem f1 g1 ->
  c = mkCursor input offset /\ mem = lo ++ input ++ hi /\ f1 = f /\ g1 = g.
Proof. intros Lo E. pose proof (cursor_ends e lo input hi base offset f g Lo) as E'. unfold ends in *. rewrite E' in E. injection E as <- <- <- <-. auto. Qed.
Lemma dec_inv {A} e (d : dec A) mem f g a mem1 f1 g1 : ends e (cdec d) mem f g a mem1 f1 g1 -> d = Ok a /\ mem1 = mem /\ f1 = f /\ g1 = g.
Proof. unfold ends, cdec. destruct d; cbn; try discriminate. intros X. injection X as <- <- <- <-. auto. Qed.
Lemma some_inv {A} e (o : option A) mem f g a mem1 f1 g1 : ends e (csome o) mem f g a mem1 f1 g1 -> o = Some a /\ mem1 = mem /\ f1 = f /\ g1 = g.
Proof. unfold ends, csome. destruct o; cbn; try discriminate. intros X. injection X as <- <- <- <-. auto. Qed.
Lemma elements_inv e vl lo base input cap p : vlayout_wf vl -> nlen lo = base -> bytes_ok input -> forall n hi i o f g es o' mem' f' g',
  (n = 0%nat \/ base + nlen input <= p) ->
  run_wasm e (read_elements vl base (nlen input) p cap n i o (lo ++ input ++ hi)) f g = (Ok (mem', (es, o'), f'), g') ->
  (exists hi', mem' = lo ++ input ++ hi' /\ nlen hi' = nlen hi) /\ f' = f /\ g' = g /\ (n = 0%nat \/ i + N.of_nat n <= cap) /\ length es = n /\
  forall vs l, holds vs cap l -> nlen l = i ->
  exists vs', decode_elements n vs (mkCursor input o) = Ok (vs', mkCursor input o') /\ holds vs' cap (l ++ map VPrim (map snd es)).
Proof.
  intros W Lo B. induction n as [|n IH]; intros hi i o f g es o' mem' f' g' C E.
  - cbn [read_elements cret run_wasm] in E. injection E as <- <- <- <- <-. split; [eauto|]. do 2 (split; [reflexivity|]). split; [auto|]. split; [reflexivity|].
    intros vs l H _. exists vs. split; [reflexivity|]. cbn [map]. now rewrite app_nil_r.
  - destruct C as [C|C]; [discriminate C|]. cbn [read_elements] in E.
    apply bind_inv in E as (c & m1 & f1 & g1 & E1 & E). apply (cursor_inv _ _ _ _ _ _ _ _ _ _ _ _ Lo) in E1 as (-> & -> & -> & ->).
    apply bind_inv in E as ([v c'] & m1 & f1 & g1 & E1 & E). apply dec_inv in E1 as (D & -> & -> & ->).
    destruct (decode_prim_any (mkCursor input o) _ _ B D) as [[A _] _]. cbn [cu_bytes] in A.
    assert (Ec : c' = mkCursor input (cu_offset c')) by (destruct c'; cbn in *; now subst).
    destruct (N.ltb_spec i cap) as [Li|]; [|discriminate E].
    apply bind_inv in E as (u & m1 & f1 & g1 & E1 & E). unfold ends, mwrite in E1.
    destruct (write_behind (lo ++ input) hi (p + i * vl_size vl) (vl_bytes vl (base + o) v) ltac:(rewrite nlen_app; lia)) as [(hi1 & Ew & Lh)|[Ew _]];
      rewrite <- !app_assoc in Ew; rewrite Ew in E1; [|discriminate E1]. cbn [run_wasm] in E1. injection E1 as <- <- <- <-.
    apply bind_inv in E as ([es1 o1] & m1 & f1 & g1 & E1 & E). cbn [cret run_wasm] in E. injection E as -> <- -> -> ->.
    destruct (IH hi1 (i + 1) (cu_offset c') f g es1 o' mem' f' g' (or_intror C) E1) as ((hi2 & -> & L2) & -> & -> & _ & Ln & K).
    split; [exists hi2; split; [reflexivity|lia]|]. do 2 (split; [reflexivity|]).
    assert (Cn : n = 0%nat \/ i + 1 + N.of_nat n <= cap) by (destruct (IH hi1 (i + 1) (cu_offset c') f g es1 o' _ f g (or_intror C) E1) as (_ & _ & _ & X & _); exact X).
    split; [right; destruct Cn as [->|]; lia|]. split; [cbn [length]; now rewrite Ln|].
    intros vs l H Ll. cbn [decode_elements]. rewrite D. cbn [bind]. destruct (holds_push vs cap l (VPrim v) H ltac:(lia)) as (vs1 & -> & H1).
    destruct (K vs1 (l ++ [VPrim v]) H1 ltac:(rewrite nlen_app; change (nlen [VPrim v]) with 1; lia)) as (vs2 & Ed & H2). rewrite <- Ec in Ed. exists vs2. split; [exact Ed|].
    cbn [map snd]. now rewrite <- app_assoc in H2.
Qed.
Lemma held_prim_inv t q p h : held_prim t q p = Some h -> into_prim t (VPrim p) = Some p.
Proof. unfold held_prim, into_prim. destruct (prim_is t p); [reflexivity|discriminate]. Qed.
Lemma held_prims_inv t es : forall hs, held_prims t es = Some hs -> into_prims t (map VPrim (map snd es)) = Some (map snd es).
Proof.
  induction es as [|[q p] es IH]; intros hs E; [reflexivity|]. cbn [held_prims] in E. destruct (held_prim t q p) as [h|] eqn:Eh; [|discriminate E]. cbn [obind] in E.
  destruct (held_prims t es) as [hs1|]; [|discriminate E]. cbn [map snd into_prims]. rewrite (held_prim_inv _ _ _ _ Eh). cbn [obind]. now rewrite (IH hs1 eq_refl).
Qed.
Lemma array_mark_count b n : array_count b = Ok n -> n <> 0 -> n <> 8 -> 22 <= b.
Proof.
  unfold array_count. cbn [pick]. unfold one_of. cbn [existsb]. rewrite !orb_false_r. intros E N0 N8.
  repeat match type of E with context [b =? ?c] => destruct (N.eqb_spec b c) as [->|]; [injection E as <-; first [congruence|vm_compute; discriminate]|] end. discriminate E.
Qed.
Lemma array_mark_eight b : array_count b = Ok 8 -> b = 7.
Proof.
  unfold array_count. cbn [pick]. unfold one_of. cbn [existsb]. rewrite !orb_false_r. intros E.
  repeat match type of E with context [b =? ?c] => destruct (N.eqb_spec b c) as [Eb|]; [try discriminate E; exact Eb|] end. discriminate E.
Qed.
Lemma elements_too_many e vl base len p cap n : forall i o mem f g, cap < i + N.of_nat n -> i <= cap -> fails e (read_elements vl base len p cap n i o) mem f g.
Proof.
  induction n as [|n IH]; intros i o mem f g L Le x g' E; [lia|]. cbn [read_elements] in E.
  apply bind_inv in E as (c & m1 & f1 & g1 & _ & E). apply bind_inv in E as ([v c'] & m2 & f2 & g2 & _ & E). destruct (N.ltb_spec i cap); [|discriminate E].
  apply bind_inv in E as (u & m3 & f3 & g3 & _ & E). apply bind_inv in E as ([es1 o1] & m4 & f4 & g4 & E1 & _). exact (IH (i + 1) _ _ _ _ ltac:(lia) ltac:(lia) _ _ E1).
Qed.
Lemma alloc_inv e size mem f g p mem1 f1 g1 : nlen mem < 2 ^ 32 -> ends e (sdk_alloc size) mem f g p mem1 f1 g1 ->
  mem1 = mem /\ p = fe_used f + size /\ f1 = with_used (fe_used f + size) f /\ g1 = g.
Proof. intros L E. unfold ends in E. rewrite (alloc_run e size mem f g L) in E. destruct (_ && _); [|discriminate E]. injection E as <- <- <- <-. auto. Qed.
Lemma arg_inv e vl lo base input t : vlayout_wf vl -> nlen lo = base -> bytes_ok input -> nlen input <= 22 * vl_size vl ->
  forall hi o f g h o' mem' f' g', base <= fe_used f -> nlen (lo ++ input ++ hi) < 2 ^ 32 ->
  run_wasm e (read_arg vl base (nlen input) t o (lo ++ input ++ hi)) f g = (Ok (mem', (h, o'), f'), g') ->
  (exists hi', mem' = lo ++ input ++ hi' /\ nlen hi' = nlen hi) /\ base <= fe_used f' /\
  exists v r, calldata_next (mkCursor input o) = Some (Some (v, mkCursor input o')) /\ from_value t v = Some r.
Proof.
  intros W Lo B Sh hi o f g h o' mem' f' g' Hu L E. unfold read_arg in E.
  apply bind_inv in E as (c & m1 & f1 & g1 & E1 & E). apply (cursor_inv _ _ _ _ _ _ _ _ _ _ _ _ Lo) in E1 as (-> & -> & -> & ->).
  unfold calldata_next, decode_value. destruct (is_eof (mkCursor input o)) eqn:Eof; [discriminate E|].
  apply bind_inv in E as (k & m1 & f1 & g1 & E1 & E). apply dec_inv in E1 as (K & -> & -> & ->). rewrite K. cbn [bind].
  assert (Prim : run_wasm e ((let~ (v, c') := cdec (decode_primitive (mkCursor input o)) in
      let~ h := csome (prim_arg t (base + o) v) in cret (h, cu_offset c')) (lo ++ input ++ hi)) f g = (Ok (mem', (h, o'), f'), g') ->
    (exists hi', mem' = lo ++ input ++ hi' /\ nlen hi' = nlen hi) /\ base <= fe_used f' /\
    exists v r, match (let* (p, c) := decode_primitive (mkCursor input o) in Ok (VPrim p, c)) with Ok r => Some (Some r) | Err _ | Panic => None end = Some (Some (v, mkCursor input o')) /\ from_value t v = Some r).
  { clear E. intros E. apply bind_inv in E as ([v c'] & m1 & f1 & g1 & E1 & E). apply dec_inv in E1 as (D & -> & -> & ->).
    apply bind_inv in E as (h1 & m1 & f1 & g1 & E1 & E). apply some_inv in E1 as (P & -> & -> & ->). cbn [cret run_wasm] in E. injection E as <- <- <- <- <-.
    split; [eauto|]. split; [exact Hu|]. destruct (decode_prim_any (mkCursor input o) _ _ B D) as [[A _] _]. cbn [cu_bytes] in A. rewrite D. cbn [bind].
    assert (Ec : c' = mkCursor input (cu_offset c')) by (destruct c'; cbn in *; now subst). rewrite <- Ec. exists (VPrim v).
    destruct t as [|t|t|t n]; cbn [prim_arg from_value] in *; [| | |discriminate P].
    - destruct v; try discriminate P. eauto.
    - destruct (held_prim t (base + o) v) eqn:Eh; [|discriminate P]. rewrite (held_prim_inv _ _ _ _ Eh). cbn [obind]. eauto.
    - assert (X : (let? h := held_prim t (base + o) v in Some (HOpt (Some h))) = Some h1 -> exists r, (let? p := into_prim t (VPrim v) in Some (ROption (Some p))) = Some r).
      { destruct (held_prim t (base + o) v) eqn:Eh; [|discriminate]. rewrite (held_prim_inv _ _ _ _ Eh). cbn [obind]. eauto. }
      destruct v; try (destruct (X P) as [r Er]; exists r; split; [reflexivity|exact Er]). eauto. }
  destruct k; try exact (Prim E). clear Prim. cbn [bind]. unfold decode_array. rewrite Eof.
  apply bind_inv in E as ([b c] & m1 & f1 & g1 & E1 & E). apply dec_inv in E1 as (R & -> & -> & ->). rewrite R. cbn [bind].
  destruct (read_byte_any (mkCursor input o) _ _ B R) as [[A _] _]. cbn [cu_bytes] in A. assert (Ec : c = mkCursor input (cu_offset c)) by (destruct c; cbn in *; now subst).
  apply bind_inv in E as (p & m1 & f1 & g1 & E1 & E). apply (alloc_inv _ _ _ _ _ _ _ _ _ L) in E1 as (-> & -> & -> & ->).
  apply bind_inv in E as (n & m1 & f1 & g1 & E1 & E). apply dec_inv in E1 as (Cn & -> & -> & ->).
  apply bind_inv in E as ([es o1] & m1 & f1 & g1 & E1 & E). unfold ends in E1.
  apply bind_inv in E as (h1 & m2 & f2 & g2 & E2 & E). apply some_inv in E2 as (P & -> & -> & ->). cbn [cret run_wasm] in E. injection E as -> -> -> -> ->.
  destruct (N.eq_dec n 8) as [->|n8].
  { exfalso. apply array_mark_eight in Cn. subst b. exact (elements_too_many _ _ _ _ _ 7 (N.to_nat 8) 0 _ _ _ _ ltac:(lia) ltac:(lia) _ _ E1). }
  assert (Cl : N.to_nat n = 0%nat \/ base + nlen input <= fe_used f + b * vl_size vl).
  { destruct (N.eq_dec n 0) as [->|n0]; [left; reflexivity|right]. pose proof (array_mark_count b n Cn n0 n8). nia. }
  destruct (elements_inv e vl lo base input b _ W Lo B (N.to_nat n) hi 0 _ _ _ _ _ _ _ _ Cl E1) as (Hm & -> & -> & _ & Le & D).
  split; [exact Hm|]. split; [cbn; lia|]. fold (array_count b). rewrite Cn. cbn [bind]. rewrite Ec.
  destruct (D (vec_with_capacity b) [] (holds_new b) eq_refl) as (vs' & Ed & H). rewrite Ed. cbn [bind]. rewrite (holds_slice _ _ _ H). cbn [app].
  destruct t as [| | |t k]; try discriminate P. cbn [array_arg] in P. destruct (N.eqb_spec (nlen es) k) as [Ek|]; [|discriminate P]. cbn [ensure obind] in P.
  destruct (held_prims t es) as [hs|] eqn:Eh; [|discriminate P]. eexists. eexists. split; [reflexivity|].
  cbn [from_value]. replace (nlen (map VPrim (map snd es)) =? k) with true by (unfold nlen in *; rewrite !map_length; lia). cbn [ensure obind].
  rewrite (held_prims_inv _ _ _ Eh). reflexivity.
Qed.
Lemma all_inv e vl lo base input : vlayout_wf vl -> nlen lo = base -> bytes_ok input -> nlen input <= 22 * vl_size vl ->
  forall ts hi o f g hs mem' f' g', base <= fe_used f -> nlen (lo ++ input ++ hi) < 2 ^ 32 ->
  run_wasm e (read_all vl base (nlen input) ts o (lo ++ input ++ hi)) f g = (Ok (mem', hs, f'), g') ->
  exists rs c, next_tuple ts (mkCursor input o) = Some (rs, c).
Proof.
  intros W Lo B Sh. induction ts as [|t ts IH]; intros hi o f g hs mem' f' g' Hu L E; [exists [], (mkCursor input o); reflexivity|].
  cbn [read_all] in E. apply bind_inv in E as ([h o1] & m1 & f1 & g1 & E1 & E). unfold ends in E1.
  destruct (arg_inv e vl lo base input t W Lo B Sh hi o f g h o1 m1 f1 g1 Hu L E1) as ((hi1 & -> & Lh) & Hu1 & v & r & Nx & Fv).
  apply bind_inv in E as (hs1 & m2 & f2 & g2 & E2 & E).
  destruct (IH hi1 o1 f1 g1 hs1 m2 f2 g2 Hu1 ltac:(rewrite !nlen_app in *; lia) E2) as (rs & c & Nt).
  unfold next_tuple in *. cbn [length next_values]. rewrite Nx. cbn [obind].
  destruct (next_values (length ts) (mkCursor input o1)) as [[vs c1]|]; cbn [obind] in *; [|discriminate Nt].
  destruct (from_values ts vs) as [rs1|] eqn:Ef; cbn [obind] in *; [|discriminate Nt]. cbn [from_values]. rewrite Fv. cbn [obind]. rewrite Ef. cbn [obind]. eexists. eexists. reflexivity.
Qed.

(* ------------------------------------------------------------------------------------ *)
(** * The call *)

Definition main_any (ret : option (list aty)) (body : list hval -> code (list hval)) (hs : list hval) : code unit :=
  let~ vs := body hs in epilogue ret vs.
Lemma prologue_any_run {A} e vl ts (k : list hval -> code A) f g p n mem : ts <> [] -> p < 2 ^ 32 -> n < 2 ^ 32 -> fe_calldata f = Some (p, n) ->
  run_wasm e (cbind (prologue_any vl ts) k mem) f g = run_wasm e (cbind (read_all vl p n ts 0) k mem) f g.
Proof.
  intros Ne Lp Ln Ec. unfold cbind at 1. rewrite run_wbind. unfold prologue_any. destruct ts as [|t ts]; [easy|].
  erewrite bind_ends; [|apply ends_host; cbn [host_call]; unfold sbind; rewrite Ec; cbn [ssome]; unfold sret; rewrite N.mod_small by exact Lp; reflexivity].
  erewrite bind_ends; [|apply ends_host; cbn [host_call]; unfold sbind; rewrite Ec; cbn [ssome]; unfold sret; rewrite N.mod_small by exact Ln; reflexivity].
  unfold cbind. now rewrite run_wbind.
Qed.
Lemma encodes_answer ts args input : Forall2 typed ts args -> encodes_any args input -> input = answer args.
Proof. intros T (cap & w & E & Sl). rewrite (appends_new _ _ (appends_tuple _ _ T) cap w E) in Sl. unfold answer. congruence. Qed.
Lemma answer_nonempty ts args : Forall2 typed ts args -> ts <> [] -> 0 < nlen (answer args).
Proof. intros T Ne. destruct T; [easy|apply answer_pos]. Qed.

Lemma enters_any e en i f name vl ts ret body args mem g : vlayout_wf vl -> exports_alloc en i -> exports en i name (endpoint_any vl ts ret body) ->
  nlen mem < 2 ^ 32 -> Forall2 typed ts args -> no_eights ts -> short vl ts (nlen (answer args)) -> ts <> [] ->
  fe_memory f = true -> fe_returndata f = None -> fe_used f + 2 * nlen (answer args) <= nlen mem ->
  (exists hs mem2 f2, entered_any mem2 f2 hs args (nlen (answer args)) /\ nlen mem2 = nlen mem
    /\ fe_used f2 = fe_used f + nlen (answer args) + reserved_all vl ts /\ fe_returndata f2 = None /\ fe_memory f2 = true
    /\ call_with_alloc e en i f name (answer args) mem g = called_with i name (run_wasm e (main_any ret body hs mem2) f2 g))
  \/ (forall x g', call_with_alloc e en i f name (answer args) mem g <> (Ok x, g'))
     /\ nlen mem < fe_used f + nlen (answer args) + reserved_all vl ts + 10 * vl_size vl.
Proof.
  intros W Ha Hx L T N8 Sh Ne Hm Hr R. set (input := answer args) in *. set (p := fe_used f + nlen input).
  pose proof (answer_nonempty ts args T Ne) as P. fold input in P.
  set (lo := firstn (N.to_nat p) mem). set (hi := skipn (length input) (skipn (N.to_nat p) mem)).
  assert (Lo : nlen lo = p) by (unfold lo, nlen in *; rewrite firstn_length; lia).
  assert (Lm : nlen (lo ++ input ++ hi) = nlen mem).
  { rewrite !nlen_app, Lo. unfold hi, nlen in *. rewrite !skipn_length. lia. }
  pose proof (call_eq e en i f name input mem g Ha L) as E. cbv zeta in E. fold p lo hi in E. rewrite Hm, Hr in E.
  replace (0 <? nlen input) with true in E by lia. replace (p <=? nlen mem) with true in E by lia. replace (nlen input <=? nlen mem - p) with true in E by lia.
  cbn [andb] in E. rewrite (wasmer_exports e en i name _ _ _ g Hx) in E. unfold endpoint_any in E.
  rewrite (prologue_any_run e vl ts _ (entry f p (nlen input)) g p (nlen input) _ Ne ltac:(lia) ltac:(lia) eq_refl) in E.
  pose proof (all_run e vl lo p W Lo ts args T N8 [] [] hi (entry f p (nlen input)) g Hm ltac:(cbn; lia)) as A. cbv zeta in A. cbn [app] in A. rewrite app_nil_r in A. fold input in A.
  specialize (A ltac:(lia) Sh). change (nlen (@nil N)) with 0 in A.
  destruct A as [(hs & hi' & f' & E1 & Lh & Ou & Us & Sd & Bl)|[F1 Lt]].
  - left. exists hs, (lo ++ input ++ hi'), f'. cbn in Us. rewrite N.add_0_r in Bl. split; [split; [apply Sd|]|].
    { eapply Forall_impl; [|exact Bl]. intros h. destruct h as [|y|[y|]|l]; cbn [below]; auto; try (destruct y; cbn [held_below]; lia). apply Forall_impl. intros y; destruct y; cbn [held_below]; lia. }
    split; [rewrite !nlen_app in *; lia|]. split; [unfold p in *; lia|]. split; [rewrite Ou; exact Hr|]. split; [rewrite Ou; exact Hm|].
    rewrite E. rewrite (bind_ends e _ _ _ _ _ _ _ _ _ E1). reflexivity.
  - right. change (fe_used (entry f p (nlen input))) with p in Lt. split; [|unfold p in *; lia]. intros x g' X. rewrite E in X. apply called_inv in X as (mem' & u & f' & X & _).
    exact (fails_first e _ _ _ _ _ F1 _ _ X).
Qed.
Lemma main_any_inv e ret body hs mem f g mem' u f' g' : run_wasm e (main_any ret body hs mem) f g = (Ok (mem', u, f'), g') ->
  exists rs mem1 f1 g1, run_wasm e (body hs mem) f g = (Ok (mem1, rs, f1), g1) /\ run_wasm e (epilogue ret rs mem1) f1 g1 = (Ok (mem', u, f'), g').
Proof.
  unfold main_any, cbind. rewrite run_wbind. destruct (run_wasm e (body hs mem) f g) as [[[[mem1 rs] f1]|x|] g1]; try discriminate. eauto 8.
Qed.
Lemma success_without e en cl g r g' bs vl ts ret body args : vlayout_wf vl -> has_code e g (cl_target cl) bs -> compiled_any vl en bs (cl_func cl) ts ret body ->
  Forall2 typed ts args -> no_eights ts -> encodes_any args (cl_input cl) -> short vl ts (nlen (cl_input cl)) ->
  exec_call e en cl g = (Some r, g') -> cr_success r = true ->
  exists hs mem f g1 mem' f' g2, entered_any mem f hs args (nlen (cl_input cl)) /\ nlen mem < 2 ^ 32 /\ fe_returndata f = None
    /\ run_wasm e (main_any ret body hs mem) f g1 = (Ok (mem', tt, f'), g2)
    /\ cr_returndata r = take_returndata f' mem'.
Proof.
  intros W Hc (mem0 & i0 & Ei & L & Ha & Hx) T N8 Ein Sh Ex Hs.
  destruct (success_steps e en cl g r g' bs Hc Ex Hs) as (a & mem & i & f & g1 & mem2 & logs & f2 & g2 & E1 & (rets & i2 & E2) & Er).
  rewrite Ei in E1. cbn [run_wasm] in E1. injection E1 as <- <- <- <-.
  rewrite (encodes_answer ts args _ T Ein) in E2, Sh |- *.
  destruct ts as [|t ts].
  - inversion T; subst args. change (0 <? nlen (answer [])) with false in E2. cbv iota in E2.
    rewrite (wasmer_exports e en i0 _ _ _ _ _ Hx) in E2. apply called_inv in E2 as (mem' & [] & f' & E2 & X).
    injection X as -> _ _ _ ->. exists [], mem0, (with_memory (env_new a (cl_template cl) (cl_mode cl))), g, mem', f', g2.
    split; [split; constructor|]. split; [exact L|]. split; [reflexivity|]. split; [exact E2|exact Er].
  - assert (Ne : t :: ts <> []) by discriminate. pose proof (answer_nonempty _ args T Ne) as P. replace (0 <? nlen (answer args)) with true in E2 by lia.
    destruct (enters_room e en i0 _ _ _ _ _ _ _ Ha L E2) as (_ & Hm & Hr & R).
    destruct (enters_any e en i0 (with_memory (env_new a (cl_template cl) (cl_mode cl))) (cl_func cl) vl (t :: ts) ret body args mem0 g W Ha Hx L T N8 Sh Ne Hm Hr R)
      as [(hs & mem1 & f1 & D & Ln & _ & Hr1 & _ & E)|[F _]]; [|destruct (F _ _ E2)].
    rewrite E in E2. apply called_inv in E2 as (mem' & [] & f' & E2 & X).
    injection X as -> _ _ _ ->. exists hs, mem1, f1, g, mem', f', g2. rewrite Ln. repeat (split; [assumption|]). exact Er.
Qed.
(** With other arguments the call does not complete. *)
Lemma refused_any e en i f name vl ts ret body input mem g : vlayout_wf vl -> exports_alloc en i -> exports en i name (endpoint_any vl ts ret body) ->
  nlen mem < 2 ^ 32 -> ts <> [] -> bytes_ok input -> nlen input <= 22 * vl_size vl -> (forall rs c, next_tuple ts (calldata_new input) <> Some (rs, c)) ->
  forall r g', call_with_alloc e en i f name input mem g <> (Ok r, g').
Proof.
  intros W Ha Hx L Ne B Sh Wr r g' E. destruct (enters_room e en i f name input mem g r g' Ha L E) as (P & Hm & Hr & R).
  rewrite (call_eq e en i f name input mem g Ha L), Hm, Hr in E. set (p := fe_used f + nlen input) in *.
  replace (0 <? nlen input) with true in E by lia. replace (p <=? nlen mem) with true in E by lia. replace (nlen input <=? nlen mem - p) with true in E by lia.
  cbn [andb] in E. rewrite (wasmer_exports e en i name _ _ _ g Hx) in E. unfold endpoint_any in E.
  set (lo := firstn (N.to_nat p) mem) in *. set (hi := skipn (length input) (skipn (N.to_nat p) mem)) in *.
  assert (Lo : nlen lo = p) by (unfold lo, nlen in *; rewrite firstn_length; lia).
  assert (Lm : nlen (lo ++ input ++ hi) = nlen mem).
  { rewrite !nlen_app, Lo. unfold hi, nlen in *. rewrite !skipn_length. lia. }
  rewrite (prologue_any_run e vl ts _ (entry f p (nlen input)) g p (nlen input) _ Ne ltac:(lia) ltac:(lia) eq_refl) in E.
  apply called_inv in E as (mem' & u & f' & E & _). apply bind_inv in E as (hs & m1 & f1 & g1 & E1 & _). unfold ends in E1.
  destruct (all_inv e vl lo p input W Lo B Sh ts hi 0 (entry f p (nlen input)) g hs m1 f1 g1 ltac:(cbn; lia) ltac:(lia) E1) as (rs & c & X). exact (Wr rs c X).
Qed.

Lemma no_eights_dec ts : {no_eights ts} + {~ no_eights ts}.
Proof.
  apply Forall_dec. intros t. destruct t as [|t|t|t n]; try (left; discriminate). destruct (N.eq_dec n 8) as [->|Ne]; [right|left; congruence].
  intros H. exact (H t eq_refl).
Qed.
Lemma eights_refused ts args : Forall2 typed ts args -> ~ no_eights ts -> forall rs c, next_tuple ts (calldata_new (answer args)) <> Some (rs, c).
Proof.
  intros T N8 rs c E. unfold next_tuple in E.
  assert (F : Forall flat (map rust_value args)) by (apply Forall_map; clear -T; induction T; constructor; eauto using typed_flat).
  assert (X : Exists array_of_eight (map rust_value args)).
  { apply Exists_map. destruct (Exists_dec (fun r => array_of_eight (rust_value r)) args ltac:(intros; apply eight_dec)) as [X|X]; [exact X|]. exfalso. apply N8.
    apply Forall_Exists_neg in X. clear -T X. induction T as [|t v ts vs Tv _ IH]; constructor; inversion_clear X as [|? ? X1 X2]; [|now apply IH].
    intros p ->. apply X1. destruct v as [|q|[q|]|l]; try contradiction Tv. destruct Tv as (En & _). cbn. unfold nlen in *. rewrite map_length. lia. }
  pose proof (next_values_eight _ [] [] F X) as D. rewrite app_nil_r, map_length in D. unfold at_ in D. cbn [app] in D. change (nlen (@nil N)) with 0 in D.
  fold (answer args) in D. unfold calldata_new in E.
  replace (length ts) with (length args) in E by (clear -T; induction T; cbn; congruence). rewrite D in E. discriminate E.
Qed.
Lemma short_eights vl ts n : short vl ts n -> ~ no_eights ts -> n <= 22 * vl_size vl.
Proof.
  intros [L|F] N8; [exact L|]. exfalso. apply N8. eapply Forall_impl; [|exact F]. intros t H p ->. discriminate (H p 8 eq_refl).
Qed.
(** A call that succeeds has no arrays of eight elements. *)
Lemma success_no_eights e en cl g r g' bs vl ts ret body args : vlayout_wf vl -> has_code e g (cl_target cl) bs -> compiled_any vl en bs (cl_func cl) ts ret body ->
  Forall2 typed ts args -> encodes_any args (cl_input cl) -> short vl ts (nlen (cl_input cl)) ->
  exec_call e en cl g = (Some r, g') -> cr_success r = true -> no_eights ts.
Proof.
  intros W Hc (mem0 & i0 & Ei & L & Ha & Hx) T Ein Sh Ex Hs. destruct (no_eights_dec ts) as [N8|N8]; [exact N8|exfalso].
  destruct (success_steps e en cl g r g' bs Hc Ex Hs) as (a & mem & i & f & g1 & mem2 & logs & f2 & g2 & E1 & (rets & i2 & E2) & Er).
  rewrite Ei in E1. cbn [run_wasm] in E1. injection E1 as <- <- <- <-.
  rewrite (encodes_answer ts args _ T Ein) in E2, Sh.
  assert (Ne : ts <> []) by (intros ->; apply N8; constructor).
  pose proof (answer_nonempty _ args T Ne) as P. replace (0 <? nlen (answer args)) with true in E2 by lia.
  refine (refused_any e en i0 _ _ vl ts ret body _ _ _ W Ha Hx L Ne _ (short_eights _ _ _ Sh N8) (eights_refused _ _ T N8) _ _ E2).
  apply JsonProofs.formats_ok. apply Forall_map. clear -T. induction T; constructor; eauto using typed_flat.
Qed.
Lemma success_any e en cl g r g' bs vl ts ret body args : vlayout_wf vl -> has_code e g (cl_target cl) bs -> compiled_any vl en bs (cl_func cl) ts ret body ->
  Forall2 typed ts args -> encodes_any args (cl_input cl) -> short vl ts (nlen (cl_input cl)) ->
  exec_call e en cl g = (Some r, g') -> cr_success r = true ->
  exists hs mem f g1 mem' f' g2, entered_any mem f hs args (nlen (cl_input cl)) /\ nlen mem < 2 ^ 32 /\ fe_returndata f = None
    /\ run_wasm e (main_any ret body hs mem) f g1 = (Ok (mem', tt, f'), g2)
    /\ cr_returndata r = take_returndata f' mem'.
Proof. intros. eapply success_without; eauto. eapply success_no_eights; eauto. Qed.

(* ------------------------------------------------------------------------------------ *)
(** * Primitive parameters *)

Lemma cursor_at_run e mem base len offset f g input : mem_read mem base len = Some input ->
  ends e (cursor_at base len offset) mem f g (mkCursor input offset) mem f g.
Proof. intros E. unfold ends, cursor_at, cbind, mread. rewrite E. reflexivity. Qed.
Lemma prim_arg_run e vl mem base len input t o f g : mem_read mem base len = Some input -> bytes_ok input ->
  match calldata_next (mkCursor input o) with
  | Some (Some (v, c')) =>
      match (let? p := into_prim t v in held_at (base + o) p) with
      | Some h => ends e (read_arg vl base len (YPrim t) o) mem f g (HVal h, cu_offset c') mem f g /\ c' = mkCursor input (cu_offset c')
      | None => fails e (read_arg vl base len (YPrim t) o) mem f g
      end
  | _ => fails e (read_arg vl base len (YPrim t) o) mem f g
  end.
Proof.
  intros R B. pose proof (cursor_at_run e mem base len o f g input R) as E1. unfold calldata_next, decode_value, read_arg.
  destruct (is_eof (mkCursor input o)) eqn:Eof; [eapply fails_next; [exact E1|]; rewrite Eof; intros x g'; discriminate|].
  destruct (peek_kind (mkCursor input o)) as [k| |] eqn:K; cbn [bind];
    [|eapply fails_next; [exact E1|]; rewrite Eof; cbv iota; rewrite K; apply fails_first; intros x g'; discriminate..].
  assert (Go : forall (d : dec (primitive * cursor)), d = decode_primitive (mkCursor input o) -> k <> KArray ->
    match (let* (p, c) := d in Ok (VPrim p, c)) with
    | Ok (v, c') => match (let? p := into_prim t v in held_at (base + o) p) with
      | Some h => ends e (read_arg vl base len (YPrim t) o) mem f g (HVal h, cu_offset c') mem f g /\ c' = mkCursor input (cu_offset c')
      | None => fails e (read_arg vl base len (YPrim t) o) mem f g
      end
    | _ => fails e (read_arg vl base len (YPrim t) o) mem f g
    end).
  { intros d Ed Nk.
    assert (Step : forall x g', run_wasm e (read_arg vl base len (YPrim t) o mem) f g = (Ok x, g') <->
       run_wasm e ((let~ (v, c') := cdec d in let~ h := csome (prim_arg (YPrim t) (base + o) v) in cret (h, cu_offset c')) mem) f g = (Ok x, g')).
    { intros x g'. unfold read_arg. rewrite (bind_ends e _ _ _ _ _ _ _ _ _ E1), Eof, K. rewrite (bind_ends e _ _ _ _ _ _ _ _ _ (ends_ret e k mem f g)). rewrite Ed. destruct k; try reflexivity. congruence. }
    destruct d as [[p c']| |]; cbn [bind].
    - destruct (decode_prim_any (mkCursor input o) p c' B (eq_sym Ed)) as [[A _] _]. cbn [cu_bytes] in A.
      cbn [prim_arg] in Step. unfold held_prim in Step. destruct (let? p0 := into_prim t (VPrim p) in held_at (base + o) p0) as [h|] eqn:Eh.
      + split; [|destruct c'; cbn in *; now subst]. unfold ends. apply Step. change (cdec (Ok (p, c'))) with (cret (p, c')).
        rewrite (bind_ends e _ _ _ _ _ _ _ _ _ (ends_ret e (p, c') mem f g)). cbv beta iota. rewrite Eh. reflexivity.
      + intros x g' X. apply Step in X. cbv beta iota in X. change (cdec (Ok (p, c'))) with (cret (p, c')) in X.
        rewrite (bind_ends e _ _ _ _ _ _ _ _ _ (ends_ret e (p, c') mem f g)) in X. cbv beta iota in X. rewrite Eh in X. discriminate X.
    - intros x g' X. apply Step in X. discriminate X.
    - intros x g' X. apply Step in X. discriminate X. }
  destruct k; try (specialize (Go _ eq_refl ltac:(discriminate)); unfold read_arg in Go; destruct (decode_primitive (mkCursor input o)) as [[p c]| |]; cbn [bind] in *; exact Go).
  assert (F : fails e (read_arg vl base len (YPrim t) o) mem f g).
  { intros x g' X. unfold read_arg in X. rewrite (bind_ends e _ _ _ _ _ _ _ _ _ E1), Eof, K in X. rewrite (bind_ends e _ _ _ _ _ _ _ _ _ (ends_ret e KArray mem f g)) in X.
    apply bind_inv in X as ([b c] & m1 & f1 & g1 & _ & X). apply bind_inv in X as (q & m2 & f2 & g2 & _ & X). apply bind_inv in X as (n & m3 & f3 & g3 & _ & X).
    apply bind_inv in X as ([es o1] & m4 & f4 & g4 & _ & X). discriminate X. }
  unfold read_arg in F. cbn [bind]. destruct (decode_array (mkCursor input o)) as [[v c']| |] eqn:D; [|exact F..].
  assert (exists l, v = VVec l) as [l ->].
  { unfold decode_array in D. rewrite Eof in D. destruct (cu_read_byte _) as [[b c]| |]; cbn [bind] in D; try discriminate D. destruct (pick b _); cbn [bind] in D; try discriminate D.
    destruct (decode_elements _ _ _) as [[vs c2]| |]; cbn [bind] in D; try discriminate D. destruct (vec_as_slice vs); [|discriminate D]. injection D as <- _. eauto. }
  cbn [into_prim obind]. exact F.
Qed.
Lemma prims_run e vl mem base len input : mem_read mem base len = Some input -> bytes_ok input -> forall ts o f g,
  match read_args base ts (mkCursor input o) with
  | Some hs => ends e (read_all vl base len (map YPrim ts) o) mem f g (map HVal hs) mem f g
  | None => fails e (read_all vl base len (map YPrim ts) o) mem f g
  end.
Proof.
  intros R B. induction ts as [|t ts IH]; intros o f g; [apply ends_ret|]. cbn [read_args map read_all].
  pose proof (prim_arg_run e vl mem base len input t o f g R B) as A.
  destruct (calldata_next (mkCursor input o)) as [[[v c']|]|]; cbn [obind]; [|apply fails_first; exact A..].
  cbn [cu_offset]. destruct (into_prim t v) as [p|]; cbn [obind] in *; [|apply fails_first; exact A].
  destruct (held_at (base + o) p) as [h|]; cbn [obind] in *; [|apply fails_first; exact A].
  destruct A as [E1 Ec]. specialize (IH (cu_offset c') f g). rewrite <- Ec in IH.
  destruct (read_args base ts c') as [hs|]; cbn [obind].
  - eapply ends_bind; [exact E1|]. cbv beta iota. eapply ends_bind; [exact IH|]. apply ends_ret.
  - eapply fails_next; [exact E1|]. cbv beta iota. apply fails_first. exact IH.
Qed.
