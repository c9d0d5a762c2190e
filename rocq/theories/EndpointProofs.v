(** Proofs about the generated endpoints. *)
From Coq Require Import List NArith ZArith Arith Bool Lia.
From Coq Require Import ZifyBool ZifyNat ZifyN.
From Verif Require Import Base StorageModel SectionModel ReceiptModel GlobalModel GlobalProofs RuntimeModel RuntimeProofs.
From Verif Require Import SdkModel SdkSpec SdkProofs AbiModel AbiSpec AbiProofs TypedModel TypedProofs EndpointModel EndpointSpec.
Import ListNotations.
Open Scope list_scope.
Open Scope N_scope.

(* ------------------------------------------------------------------------------------ *)
(** * Memory *)

Lemma read_app lo hi q n : q + n <= nlen lo -> mem_read (lo ++ hi) q n = mem_read lo q n.
Proof.
  intros L. unfold mem_read. rewrite nlen_app. replace (q + n <=? nlen lo + nlen hi) with true by lia. replace (q + n <=? nlen lo) with true by lia.
  f_equal. unfold nlen in *. rewrite skipn_app, firstn_app, skipn_length.
  replace (N.to_nat n - (length lo - N.to_nat q))%nat with 0%nat by lia. cbn [firstn]. apply app_nil_r.
Qed.
Lemma read_mid lo bs hi : mem_read (lo ++ bs ++ hi) (nlen lo) (nlen bs) = Some bs.
Proof.
  unfold mem_read. rewrite !nlen_app. replace (nlen lo + nlen bs <=? nlen lo + (nlen bs + nlen hi)) with true by lia.
  f_equal. unfold nlen. rewrite !Nat2N.id, skipn_app, skipn_all, Nat.sub_diag. cbn [app skipn].
  rewrite firstn_app, firstn_all, Nat.sub_diag. cbn [firstn]. apply app_nil_r.
Qed.
Lemma read_at lo bs hi p : p = nlen lo -> mem_read (lo ++ bs ++ hi) p (nlen bs) = Some bs.
Proof. intros ->. apply read_mid. Qed.
Lemma write_app lo hi bs : nlen bs <= nlen hi ->
  mem_write (lo ++ hi) (nlen lo) bs = Some (lo ++ bs ++ skipn (length bs) hi).
Proof.
  intros L. unfold mem_write. rewrite nlen_app. replace (nlen lo + nlen bs <=? nlen lo + nlen hi) with true by lia.
  f_equal. unfold nlen in *. rewrite Nat2N.id, firstn_app, firstn_all, Nat.sub_diag. cbn [firstn]. rewrite app_nil_r. do 2 f_equal.
  rewrite skipn_app. replace (N.to_nat (N.of_nat (length lo) + N.of_nat (length bs))) with (length lo + length bs)%nat by lia.
  rewrite skipn_all2 by lia. cbn [app]. f_equal. lia.
Qed.
Lemma write_over lo hi bs : nlen hi < nlen bs -> mem_write (lo ++ hi) (nlen lo) bs = None.
Proof. intros L. unfold mem_write. rewrite nlen_app. now replace (nlen lo + nlen bs <=? nlen lo + nlen hi) with false by lia. Qed.

(* ------------------------------------------------------------------------------------ *)
(** * Encoding into the memory *)

Lemma skip_skip {A} (l : list A) : forall a b, skipn b (skipn a l) = skipn (a + b) l.
Proof. induction l as [|x l IH]; intros [|a] b; try reflexivity; [now rewrite !skipn_nil|]. cbn [skipn Nat.add]. apply IH. Qed.

Section Write.
Context (e : env) (cap : N) (lo : bytes).

(** [c] appends [bs] to what was written behind [lo], if there is room in the vector and in the
    memory, and traps otherwise. *)
Definition writes (c : N -> code N) (bs : bytes) : Prop :=
  forall e1 hi f g, nlen e1 <= cap ->
  run_wasm e (c (nlen e1) (lo ++ e1 ++ hi)) f g
  = if (nlen e1 + nlen bs <=? cap) && (nlen bs <=? nlen hi)
    then (Ok (lo ++ (e1 ++ bs) ++ skipn (length bs) hi, nlen e1 + nlen bs, f), g)
    else (Err ([], f), g).

Lemma writes_nil : writes (fun len => cret len) [].
Proof.
  intros e1 hi f g L. change (nlen (@nil N)) with 0. replace (nlen e1 + 0 <=? cap) with true by lia. replace (0 <=? nlen hi) with true by lia.
  cbn [andb length skipn]. rewrite app_nil_r, N.add_0_r. reflexivity.
Qed.
Lemma writes_bind c d a b : writes c a -> writes d b -> writes (fun len => let~ len := c len in d len) (a ++ b).
Proof.
  intros A B e1 hi f g L. unfold cbind. rewrite run_wbind, A by exact L. rewrite nlen_app.
  destruct (N.leb_spec (nlen e1 + nlen a) cap); cbn [andb]; [|now replace (nlen e1 + (nlen a + nlen b) <=? cap) with false by lia].
  destruct (N.leb_spec (nlen a) (nlen hi)); cbn [andb].
  2:{ replace (nlen a + nlen b <=? nlen hi) with false by lia. now rewrite andb_false_r. }
  rewrite <- nlen_app. rewrite B by (rewrite nlen_app; lia). rewrite nlen_app. 
  assert (Sk : nlen (skipn (length a) hi) = nlen hi - nlen a) by (unfold nlen; rewrite skipn_length; lia). rewrite Sk.
  replace (nlen e1 + nlen a + nlen b <=? cap) with (nlen e1 + (nlen a + nlen b) <=? cap) by lia.
  replace (nlen b <=? nlen hi - nlen a) with (nlen a + nlen b <=? nlen hi) by lia.
  destruct (_ && _); [|reflexivity]. rewrite skip_skip, app_length, N.add_assoc, <- !app_assoc. reflexivity.
Qed.
Lemma writes_ext c d bs : (forall e1 hi, c (nlen e1) (lo ++ e1 ++ hi) = d (nlen e1) (lo ++ e1 ++ hi)) -> writes c bs -> writes d bs.
Proof. intros E W e1 hi f g L. rewrite <- E. now apply W. Qed.
Lemma writes_push b : writes (fun len => push_at (nlen lo) cap len b) [b].
Proof.
  intros e1 hi f g L. unfold push_at. change (nlen [b]) with 1. destruct (N.ltb_spec (nlen e1) cap) as [Lt|Ge].
  2:{ now replace (nlen e1 + 1 <=? cap) with false by lia. }
  replace (nlen e1 + 1 <=? cap) with true by lia. cbn [andb]. unfold cbind, mwrite. rewrite app_assoc, <- nlen_app.
  destruct (N.leb_spec 1 (nlen hi)) as [R|R].
  - rewrite write_app by exact R. cbn [wbind cret run_wasm]. rewrite <- !app_assoc. reflexivity.
  - rewrite write_over by exact R. reflexivity.
Qed.
Lemma writes_pushes bs : writes (fun len => pushes_at (nlen lo) cap len bs) bs.
Proof.
  induction bs as [|b bs IH]; [apply writes_nil|]. cbn [pushes_at].
  apply (writes_bind (fun len => push_at (nlen lo) cap len b) (fun len => pushes_at (nlen lo) cap len bs) [b] bs); [apply writes_push|exact IH].
Qed.
(** An address that stands below is copied as it is. *)
Lemma writes_copy n : forall q a, mem_read lo q (N.of_nat n) = Some a -> writes (fun len => copy_at (nlen lo) cap len q n) a.
Proof.
  induction n as [|n IH]; intros q a E.
  - assert (a = []) as ->.
    { unfold mem_read in E. destruct (_ <=? _); [|discriminate E]. injection E as <-. reflexivity. }
    apply writes_nil.
  - cbn [copy_at]. unfold mem_read in E. destruct (N.leb_spec (q + N.of_nat (S n)) (nlen lo)) as [L|]; [|discriminate E].
    rewrite Nat2N.id in E. injection E as E.
    assert (X : exists b a', a = b :: a' /\ mem_read lo q 1 = Some [b] /\ mem_read lo (q + 1) (N.of_nat n) = Some a').
    { unfold mem_read. replace (q + 1 <=? nlen lo) with true by lia. replace (q + 1 + N.of_nat n <=? nlen lo) with true by lia.
      replace (N.to_nat (q + 1)) with (N.to_nat q + 1)%nat by lia. rewrite <- skip_skip. rewrite Nat2N.id. change (N.to_nat 1) with 1%nat.
      assert (Ls : (0 < length (skipn (N.to_nat q) lo))%nat) by (unfold nlen in L; rewrite skipn_length; lia).
      destruct (skipn (N.to_nat q) lo) as [|b rest]; [cbn in Ls; lia|]. exists b. cbn [firstn skipn] in *. eexists. split; [now rewrite <- E|]. split; reflexivity. }
    destruct X as (b & a' & -> & R1 & R2).
    apply (writes_ext (fun len => let~ len := pushes_at (nlen lo) cap len [b] in copy_at (nlen lo) cap len (q + 1) n)).
    2:{ apply (writes_bind (fun len => pushes_at (nlen lo) cap len [b]) (fun len => copy_at (nlen lo) cap len (q + 1) n) [b] a'); [apply writes_pushes|now apply IH]. }
    intros e1 hi. unfold cbind at 2, mread. rewrite read_app by lia. rewrite R1. reflexivity.
Qed.
Lemma pushed_format p : prim_ok p -> (forall a, p <> PAddress a) -> pushed p = Some (prim_format p).
Proof.
  intros O NA. unfold pushed. pose proof (appends_prim p O) as A.
  assert (L : nlen (prim_format p) <= 9).
  { destruct p as [| |b|a|n|t z]; try (cbn; lia); [now destruct (NA a)| |].
    - pose proof (prim_max YAmount (PAmount n)) as M. change (prim_max_byte_size YAmount) with 9 in M. apply M. split; [exact O|eexists; reflexivity].
    - pose proof (prim_max (YInt t) (PInt t z)) as M. cbn [prim_max_byte_size] in M. rewrite max_size in M.
      assert (Z.to_N (ity_bits t) / 8 <= 8) by (destruct t; vm_compute; discriminate).
      specialize (M ltac:(split; [exact O|eexists; reflexivity])). lia. }
  destruct (proj2 (appends_fits _ _ A 9) L) as [w E]. rewrite E. cbn [obind]. exact (appends_new _ _ A 9 w E).
Qed.
Lemma writes_held h p : denotes lo h p -> prim_ok p -> writes (fun len => encode_held (nlen lo) cap len h) (prim_format p).
Proof.
  destruct h as [b|t z|n|q]; cbn [denotes encode_held]; intros D O.
  - subst p. rewrite pushed_format by (auto; discriminate). apply (writes_ext (fun len => pushes_at (nlen lo) cap len (prim_format (PBool b)))); [reflexivity|apply writes_pushes].
  - subst p. rewrite pushed_format by (auto; discriminate). apply (writes_ext (fun len => pushes_at (nlen lo) cap len (prim_format (PInt t z)))); [reflexivity|apply writes_pushes].
  - subst p. rewrite pushed_format by (auto; discriminate). apply (writes_ext (fun len => pushes_at (nlen lo) cap len (prim_format (PAmount n)))); [reflexivity|apply writes_pushes].
  - destruct D as (a & -> & R). cbn [prim_format]. change (mark 4 0) with L_ADDRESS.
    apply (writes_bind (fun len => push_at (nlen lo) cap len L_ADDRESS) (fun len => copy_at (nlen lo) cap len q 20) [L_ADDRESS] a); [apply writes_push|now apply writes_copy].
Qed.
Lemma writes_helds hs ps : Forall2 (denotes lo) hs ps -> Forall prim_ok ps ->
  writes (fun len => encode_helds (nlen lo) cap len hs) (flat_map prim_format ps).
Proof.
  induction 1 as [|h p hs ps D _ IH]; intros O; [apply writes_nil|]. inversion_clear O as [|? ? O1 O2]. cbn [encode_helds flat_map].
  apply (writes_bind (fun len => encode_held (nlen lo) cap len h) (fun len => encode_helds (nlen lo) cap len hs)); [now apply writes_held|now apply IH].
Qed.
Lemma writes_hval t v r : typed t r -> stands lo v r -> writes (fun len => encode_hval (nlen lo) cap len v) (format (rust_value r)).
Proof.
  intros T D. destruct v as [|h|[h|]|hs], r as [|p|[p|]|ps]; try contradiction D; cbn [encode_hval rust_value format].
  - apply writes_push.
  - apply writes_held; [exact D|]. destruct t; try contradiction T. apply T.
  - apply writes_held; [exact D|]. destruct t; try contradiction T. apply T.
  - apply writes_push.
  - destruct t as [| | |t n]; try contradiction T. destruct T as (En & L & F). cbn [stands] in D.
    assert (El : nlen hs = nlen ps) by (unfold nlen; f_equal; clear -D; induction D; cbn; congruence).
    replace (nlen hs <? 11) with true by lia. rewrite flat_map_prims. replace (nlen (map VPrim ps)) with (nlen ps) by (unfold nlen; now rewrite map_length).
    rewrite El, array_mark_spec by lia.
    apply (writes_bind (fun len => push_at (nlen lo) cap len (array_mark (nlen ps))) (fun len => encode_helds (nlen lo) cap len hs) [array_mark (nlen ps)]); [apply writes_push|].
    apply writes_helds; [exact D|]. eapply Forall_impl; [|exact F]. intros p [O _]. exact O.
Qed.
Lemma writes_hvals ts vs rs : Forall2 typed ts rs -> Forall2 (stands lo) vs rs ->
  writes (fun len => encode_hvals (nlen lo) cap len vs) (flat_map format (map rust_value rs)).
Proof.
  intros T. revert vs. induction T as [|t r ts rs T _ IH]; intros vs D; inversion_clear D as [|v ? vs' ? D1 D2]; [apply writes_nil|].
  cbn [encode_hvals map flat_map]. apply (writes_bind (fun len => encode_hval (nlen lo) cap len v) (fun len => encode_hvals (nlen lo) cap len vs')); [eapply writes_hval; eauto|now apply IH].
Qed.
End Write.

(* ------------------------------------------------------------------------------------ *)
(** * The epilogue *)

Lemma denotes_below lo hi h p : held_below (nlen lo) h -> denotes (lo ++ hi) h p -> denotes lo h p.
Proof.
  destruct h as [b|t z|n|q]; cbn [held_below denotes]; auto. intros B (a & -> & R). exists a. split; [reflexivity|]. now rewrite read_app in R by lia.
Qed.
Lemma stands_below lo hi v r : below (nlen lo) v -> stands (lo ++ hi) v r -> stands lo v r.
Proof.
  destruct v as [|h|[h|]|hs], r as [|p|[p|]|ps]; cbn [below stands]; auto; try apply denotes_below.
  intros B D. induction D as [|h p hs ps D _ IH]; constructor; inversion_clear B; [eapply denotes_below; eauto|auto].
Qed.
Lemma max_pos t : 0 < max_byte_size t.
Proof.
  destruct t as [|t|t|t n]; cbn [max_byte_size]; try lia; destruct t as [| | |t]; try reflexivity; cbn [prim_max_byte_size]; rewrite max_size; lia.
Qed.
Lemma tuple_max_pos ts : ts <> [] -> 0 < tuple_max_byte_size ts.
Proof.
  destruct ts as [|t ts]; [easy|]. intros _. unfold tuple_max_byte_size. cbn [fold_right]. pose proof (max_pos t). lia.
Qed.
Definition answer (rs : list rust) : bytes := flat_map format (map rust_value rs).
Lemma answer_pos r rs : 0 < nlen (answer (r :: rs)).
Proof. unfold answer. cbn [map flat_map]. destruct (format_nonempty (rust_value r)) as (b & bs & ->). cbn [app]. rewrite nlen_cons. lia. Qed.

Lemma alloc_run e size mem f g : nlen mem < 2 ^ 32 ->
  run_wasm e (sdk_alloc size mem) f g
  = if (0 <? size) && fe_memory f && (fe_used f + size <=? nlen mem)
    then (Ok (mem, fe_used f + size, with_used (fe_used f + size) f), g) else (Panic, g).
Proof.
  intros L. unfold sdk_alloc, host. cbn [run_wasm host_call]. unfold sbind, sassert.
  destruct (0 <? size); [|reflexivity]. destruct (fe_memory f); [|reflexivity]. cbn [andb]. unfold sret at 1.
  destruct (N.leb_spec (fe_used f + size) (nlen mem)).
  - replace (nlen mem <? fe_used f + size) with false by lia. rewrite N.mod_small by lia. reflexivity.
  - replace (nlen mem <? fe_used f + size) with true by lia. reflexivity.
Qed.

Lemma epilogue_run e ts rs vs mem f g : Forall2 typed ts rs -> Forall2 (stands mem) vs rs ->
  Forall (below (fe_used f + tuple_max_byte_size ts)) vs -> nlen mem < 2 ^ 32 ->
  (forall mem' f' g', run_wasm e (epilogue (Some ts) vs mem) f g = (Ok (mem', tt, f'), g') ->
     take_returndata f' mem' = Some (answer rs))
  /\ (ts <> [] -> fe_memory f = true -> fe_used f + 2 * tuple_max_byte_size ts <= nlen mem ->
      exists mem' f', run_wasm e (epilogue (Some ts) vs mem) f g = (Ok (mem', tt, f'), g)).
Proof.
  intros T D B L. set (cap := tuple_max_byte_size ts) in *. unfold epilogue. fold cap.
  assert (X : forall cond, cond = (0 <? cap) && fe_memory f && (fe_used f + cap <=? nlen mem) ->
    run_wasm e ((let~ p := sdk_alloc cap in let~ len := encode_hvals p cap 0 vs in
                 if 0 <? len then let~ _ := host (HSetReturndata p len) in cret tt else cret tt) mem) f g
    = if cond then
        if nlen (answer rs) <=? nlen mem - (fe_used f + cap)
        then (Ok (firstn (N.to_nat (fe_used f + cap)) mem ++ answer rs ++ skipn (length (answer rs)) (skipn (N.to_nat (fe_used f + cap)) mem), tt,
                  with_returndata (fe_used f + cap, nlen (answer rs)) (with_used (fe_used f + cap) f)), g)
        else (Err ([], with_used (fe_used f + cap) f), g)
      else (Panic, g)).
  { intros cond Ec. unfold cbind at 1. rewrite run_wbind, (alloc_run e cap mem f g L), <- Ec. destruct cond; [|reflexivity].
    symmetry in Ec. apply andb_prop in Ec as [Ec R]. apply andb_prop in Ec as [C0 _]. apply N.leb_le in R. apply N.ltb_lt in C0.
    unfold cbind at 1. rewrite run_wbind.
    set (p := fe_used f + cap) in *. set (lo := firstn (N.to_nat p) mem). set (hi := skipn (N.to_nat p) mem).
    assert (Lo : nlen lo = p) by (unfold lo, nlen in *; rewrite firstn_length; lia).
    assert (Hi : nlen hi = nlen mem - p) by (unfold hi, nlen in *; rewrite skipn_length; lia).
    assert (D' : Forall2 (stands lo) vs rs).
    { assert (Em : mem = lo ++ hi) by (symmetry; apply firstn_skipn). rewrite Em in D. rewrite <- Lo in B.
      clear -D B. induction D as [|v r vs rs D _ IH]; constructor; inversion_clear B; [eapply stands_below; eauto|auto]. }
    pose proof (writes_hvals e cap lo ts vs rs T D' [] hi (with_used p f) g ltac:(unfold nlen; cbn; lia)) as W. rewrite Lo in W.
    change (nlen (@nil N)) with 0 in W. rewrite !N.add_0_l in W. cbn [app] in W. unfold lo at 1, hi at 1 in W. rewrite firstn_skipn in W. fold (answer rs) in W.
    rewrite W. pose proof (tuple_max ts rs T) as M. fold (answer rs) cap in M. replace (nlen (answer rs) <=? cap) with true by lia. cbn [andb]. rewrite Hi.
    destruct (N.leb_spec (nlen (answer rs)) (nlen mem - p)); [|reflexivity].
    assert (0 < nlen (answer rs)) as P.
    { destruct rs as [|r rs]; [|apply answer_pos]. inversion T; subst ts. unfold cap, tuple_max_byte_size in C0. cbn in C0. lia. }
    replace (0 <? nlen (answer rs)) with true by lia. unfold cbind, host. cbn [wbind run_wasm host_call]. unfold sbind, sassert.
    replace (0 <? nlen (answer rs)) with true by lia. reflexivity. }
  specialize (X _ eq_refl). rewrite X. split.
  - intros mem' f' g'. destruct ((0 <? cap) && fe_memory f && (fe_used f + cap <=? nlen mem)) eqn:Ec; [|discriminate].
    apply andb_prop in Ec as [Ec R]. apply andb_prop in Ec as [C0 _]. apply N.leb_le in R. apply N.ltb_lt in C0.
    destruct (N.leb_spec (nlen (answer rs)) (nlen mem - (fe_used f + cap))); [|discriminate]. intros E.
    assert (P : 0 < nlen (answer rs)).
    { destruct rs as [|r rs]; [|apply answer_pos]. inversion T; subst ts. unfold cap, tuple_max_byte_size in C0. cbn in C0. lia. }
    assert (E1 : f' = with_returndata (fe_used f + cap, nlen (answer rs)) (with_used (fe_used f + cap) f)) by congruence.
    assert (E2 : mem' = firstn (N.to_nat (fe_used f + cap)) mem ++ answer rs ++ skipn (length (answer rs)) (skipn (N.to_nat (fe_used f + cap)) mem)) by congruence.
    rewrite E1, E2. unfold take_returndata. cbn [with_returndata fe_returndata]. replace (0 <? nlen (answer rs)) with true by lia.
    apply read_at. unfold nlen in *. rewrite firstn_length. lia.
  - intros Ne Hm R. pose proof (tuple_max_pos ts Ne) as C0. fold cap in C0. pose proof (tuple_max ts rs T) as M. fold (answer rs) cap in M.
    replace (0 <? cap) with true by lia. rewrite Hm. replace (fe_used f + cap <=? nlen mem) with true by lia. cbn [andb].
    replace (nlen (answer rs) <=? nlen mem - (fe_used f + cap)) with true by lia. eauto.
Qed.

(* ------------------------------------------------------------------------------------ *)
(** * The prologue *)

Definition formats (ps : list primitive) : bytes := flat_map prim_format ps.
Lemma formats_values ps : flat_map format (map rust_value (map RPrim ps)) = formats ps.
Proof. induction ps as [|p ps IH]; [reflexivity|]. unfold formats in *. cbn [map flat_map rust_value format]. now rewrite IH. Qed.
Lemma held_at_denotes lo hi position t p : prim_typed t p -> nlen lo = position ->
  exists h, held_at position p = Some h /\ denotes (lo ++ prim_format p ++ hi) h p /\ held_below (position + nlen (prim_format p)) h.
Proof.
  intros [O T] E. destruct t as [| | |t]; cbn in T; destruct T as [x ->]; cbn [held_at]; eexists; (split; [reflexivity|]); cbn [denotes held_below]; try (split; [reflexivity|exact Logic.I]).
  split. 2:{ destruct O as [_ O]. cbn [prim_format]. rewrite nlen_cons. unfold nlen. rewrite O. lia. }
  exists x. split; [reflexivity|]. cbn [prim_format]. change (mark 4 0 :: x) with ([mark 4 0] ++ x). rewrite <- app_assoc, app_assoc.
  replace (position + 1) with (nlen (lo ++ [mark 4 0])) by (rewrite nlen_app, E; reflexivity).
  destruct O as [_ O]. replace 20 with (nlen x) by (unfold nlen; rewrite O; reflexivity). apply read_mid.
Qed.
Lemma read_args_ok ts ps : Forall2 prim_typed ts ps -> forall base lo hi pre rest, nlen lo = base ->
  exists hs, read_args base ts (at_ pre (formats ps ++ rest)) = Some hs
    /\ Forall2 (denotes (lo ++ pre ++ formats ps ++ hi)) hs ps
    /\ Forall (held_below (base + nlen pre + nlen (formats ps))) hs.
Proof.
  induction 1 as [|t p ts ps T _ IH]; intros base lo hi pre rest E; [exists []; split; [reflexivity|split; constructor]|].
  unfold formats. cbn [read_args flat_map]. fold (formats ps). rewrite <- app_assoc.
  pose proof (next_ok (VPrim p) pre (formats ps ++ rest)) as Nx. cbn [format flat array_of_eight] in Nx. rewrite Nx by (auto; apply T).
  cbn [obind into_prim]. rewrite (prim_is_typed t p T). cbn [obind].
  destruct (held_at_denotes (lo ++ pre) (formats ps ++ hi) (base + nlen pre) t p T) as (h & Eh & Dh & Bh); [rewrite nlen_app; lia|].
  change (cu_offset (at_ pre (prim_format p ++ formats ps ++ rest))) with (nlen pre). rewrite Eh. cbn [obind].
  destruct (IH base lo hi (pre ++ prim_format p) rest E) as (hs & Ehs & Dhs & Bhs). rewrite Ehs. cbn [obind].
  exists (h :: hs). split; [reflexivity|]. rewrite <- !app_assoc in *. split; [constructor; assumption|]. rewrite !nlen_app in *.
  constructor; [|eapply Forall_impl; [|exact Bhs]; intros x; destruct x; cbn [held_below]; lia]. destruct h; cbn [held_below] in *; try exact Logic.I. lia.
Qed.
(** Arguments that were read are values of the types. *)
Lemma read_args_next base ts : forall c hs, read_args base ts c = Some hs ->
  exists ps c', next_tuple (map YPrim ts) c = Some (map RPrim ps, c').
Proof.
  induction ts as [|t ts IH]; intros c hs; [exists [], c; reflexivity|]. cbn [read_args].
  destruct (calldata_next c) as [[[v c1]|]|] eqn:En; cbn [obind]; try discriminate.
  destruct (into_prim t v) as [p|] eqn:Ei; cbn [obind]; [|discriminate]. destruct (held_at _ p); cbn [obind]; [|discriminate].
  destruct (read_args base ts c1) as [hs1|] eqn:Er; cbn [obind]; [|discriminate]. intros _.
  destruct (IH c1 hs1 Er) as (ps & c2 & Ex). unfold next_tuple in *. cbn [map length next_values]. rewrite En. cbn [obind].
  destruct (next_values (length (map YPrim ts)) c1) as [[vs c3]|]; cbn [obind] in *; [|discriminate].
  destruct (from_values (map YPrim ts) vs) as [rs|] eqn:Ef; cbn [obind] in *; [|discriminate]. injection Ex as -> ->.
  exists (p :: ps), c2. cbn [map from_values from_value]. rewrite Ei. cbn [obind]. rewrite Ef. reflexivity.
Qed.

(* ------------------------------------------------------------------------------------ *)
(** * The call *)

Definition main (ret : option (list aty)) (body : list held -> code (list hval)) (hs : list held) : code unit :=
  let~ vs := body hs in epilogue ret vs.
Definition called_with {I} (i : I) (name : bytes) (r : outcome (bytes * func_env) (bytes * unit * func_env) * gstate)
    : outcome failure (bytes * list N * I * list bytes * func_env) * gstate :=
  match r with
  | (Ok (mem', _, f'), g') => (Ok (mem', [], i, fe_logs f', with_logs [] f'), g')
  | (Err (msg, f'), g') => (Err (FuncFailed (ac_addr (fe_account f')) (fe_template f') name msg, fe_logs f'), g')
  | (Panic, g') => (Panic, g')
  end.
Lemma wasmer_exports e en i name c f mem g : exports en i name c ->
  wasmer_call e en i f name [] mem g = called_with i name (run_wasm e (c mem) f g).
Proof.
  intros [_ E]. unfold wasmer_call. rewrite E, run_wbind. destruct (run_wasm e (c mem) f g) as [[[[mem' []] f']|[msg f']|] g']; reflexivity.
Qed.

(** The environment in which the function is entered. *)
Definition entry (f : func_env) (p n : N) : func_env :=
  with_calldata (p, n) (with_mode (fe_mode f) (with_logs [] (with_used p (with_mode AccessDenied f)))).
Lemma call_eq e en i f name input mem g : exports_alloc en i -> nlen mem < 2 ^ 32 ->
  let p := fe_used f + nlen input in
  call_with_alloc e en i f name input mem g =
  if (0 <? nlen input) && fe_memory f && (p <=? nlen mem) then
    match fe_returndata f with
    | Some _ => (Panic, g)
    | None =>
        if nlen input <=? nlen mem - p
        then wasmer_call e en i (entry f p (nlen input)) name []
               (firstn (N.to_nat p) mem ++ input ++ skipn (length input) (skipn (N.to_nat p) mem)) g
        else (Panic, g)
    end
  else (Panic, g).
Proof.
  intros [Ef Ec] L p. unfold call_with_alloc, func. rewrite Ef. unfold sbind at 1. unfold wasmer_call at 1. rewrite Ec, run_wbind.
  unfold generated_alloc. rewrite (alloc_run e (nlen input) mem (with_mode AccessDenied f) g L). cbn [with_mode fe_memory fe_used]. fold p.
  destruct ((0 <? nlen input) && fe_memory f && (p <=? nlen mem)) eqn:C; [|reflexivity].
  apply andb_prop in C as [_ R]. apply N.leb_le in R. cbn [run_wasm]. unfold sbind, ssome, sassert. cbn [nth_error]. unfold sret at 1.
  cbn [with_mode with_logs with_used fe_returndata]. destruct (fe_returndata f) as [d|] eqn:Er; [reflexivity|]. unfold sret at 1.
  set (lo := firstn (N.to_nat p) mem). set (hi := skipn (N.to_nat p) mem).
  assert (Lo : nlen lo = p) by (unfold lo, nlen in *; rewrite firstn_length; lia).
  assert (Hi : nlen hi = nlen mem - p) by (unfold hi, nlen in *; rewrite skipn_length; lia).
  assert (Em : mem = lo ++ hi) by (symmetry; apply firstn_skipn).
  destruct (N.leb_spec (nlen input) (nlen mem - p)) as [R2|R2].
  - assert (W : mem_write mem p input = Some (lo ++ input ++ skipn (length input) hi)) by (pose proof (write_app lo hi input ltac:(lia)) as W; now rewrite <- Em, Lo in W).
    rewrite W. reflexivity.
  - assert (W : mem_write mem p input = None) by (pose proof (write_over lo hi input ltac:(lia)) as W; now rewrite <- Em, Lo in W).
    rewrite W. reflexivity.
Qed.
Lemma prologue_run {A} e ts (k : list held -> code A) f g p lo input hi : ts <> [] -> nlen lo = p -> nlen (lo ++ input ++ hi) < 2 ^ 32 ->
  fe_calldata f = Some (p, nlen input) ->
  run_wasm e (cbind (prologue ts) k (lo ++ input ++ hi)) f g
  = match read_args p ts (calldata_new input) with
    | Some hs => run_wasm e (k hs (lo ++ input ++ hi)) f g
    | None => (Err ([], f), g)
    end.
Proof.
  intros Ne Lo Lm Ec. rewrite !nlen_app in Lm.
  assert (E : ends e node_calldata (lo ++ input ++ hi) f g (p, input) (lo ++ input ++ hi) f g).
  { unfold node_calldata. eapply ends_bind.
    - apply ends_host. cbn [host_call]. unfold sbind. rewrite Ec. cbn [ssome]. unfold sret. rewrite N.mod_small by lia. reflexivity.
    - eapply ends_bind.
      + apply ends_host. cbn [host_call]. unfold sbind. rewrite Ec. cbn [ssome]. unfold sret. rewrite N.mod_small by lia. reflexivity.
      + unfold ends, cbind, mread. rewrite read_at by lia. reflexivity. }
  unfold cbind at 1. rewrite run_wbind. unfold prologue. destruct ts as [|t ts]; [easy|].
  rewrite (bind_ends e node_calldata _ _ _ _ _ _ _ _ E). destruct (read_args p (t :: ts) (calldata_new input)); reflexivity.
Qed.

(** A call enters the body with its arguments. *)
Lemma enters e en i f name ts ret body ps mem g : exports_alloc en i -> exports en i name (endpoint ts ret body) ->
  nlen mem < 2 ^ 32 -> Forall2 prim_typed ts ps -> ts <> [] -> 
  fe_memory f = true -> fe_returndata f = None -> fe_used f + 2 * nlen (formats ps) <= nlen mem ->
  exists hs mem2 f2, entered mem2 f2 hs ps (nlen (formats ps)) /\ nlen mem2 = nlen mem /\ fe_used f2 = fe_used f + nlen (formats ps)
    /\ fe_returndata f2 = None /\ fe_memory f2 = true
    /\ call_with_alloc e en i f name (formats ps) mem g = called_with i name (run_wasm e (main ret body hs mem2) f2 g).
Proof.
  intros Ha Hx L T Ne Hm Hr R. set (input := formats ps) in *. set (p := fe_used f + nlen input).
  assert (P : 0 < nlen input).
  { unfold input. destruct T as [|t q ts qs]; [easy|]. unfold formats. cbn [flat_map]. destruct (prim_format_nonempty q) as (b & bs & ->). cbn [app]. rewrite nlen_cons. lia. }
  set (lo := firstn (N.to_nat p) mem). set (hi := skipn (length input) (skipn (N.to_nat p) mem)).
  assert (Lo : nlen lo = p) by (unfold lo, nlen in *; rewrite firstn_length; lia).
  assert (Lm : nlen (lo ++ input ++ hi) = nlen mem).
  { rewrite !nlen_app, Lo. unfold hi, nlen in *. rewrite !skipn_length. lia. }
  pose proof (call_eq e en i f name input mem g Ha L) as E. cbv zeta in E. fold p lo hi in E. rewrite Hm, Hr in E.
  replace (0 <? nlen input) with true in E by lia. replace (p <=? nlen mem) with true in E by lia. replace (nlen input <=? nlen mem - p) with true in E by lia.
  cbn [andb] in E. rewrite (wasmer_exports e en i name _ _ _ g Hx) in E.
  destruct (read_args_ok ts ps T p lo hi [] [] Lo) as (hs & Eh & Dh & Bh). rewrite app_nil_r in Eh. cbn [app] in Dh. fold input in Eh, Dh, Bh.
  change (nlen (@nil N)) with 0 in Bh. rewrite N.add_0_r in Bh.
  exists hs, (lo ++ input ++ hi), (entry f p (nlen input)). split; [split; [exact Dh|exact Bh]|]. split; [exact Lm|]. split; [reflexivity|]. split; [exact Hr|]. split; [exact Hm|].
  rewrite E. unfold endpoint. rewrite (prologue_run e ts _ (entry f p (nlen input)) g p lo input hi Ne Lo ltac:(lia) eq_refl).
  change (at_ [] input) with (calldata_new input) in Eh. rewrite Eh. reflexivity.
Qed.
Lemma enters_room e en i f name input mem g r g' : exports_alloc en i -> nlen mem < 2 ^ 32 ->
  call_with_alloc e en i f name input mem g = (Ok r, g') ->
  0 < nlen input /\ fe_memory f = true /\ fe_returndata f = None /\ fe_used f + 2 * nlen input <= nlen mem.
Proof.
  intros Ha L E. rewrite (call_eq e en i f name input mem g Ha L) in E.
  destruct (0 <? nlen input) eqn:C1; [|discriminate E]. destruct (fe_memory f); [|discriminate E]. cbn [andb] in E.
  destruct (N.leb_spec (fe_used f + nlen input) (nlen mem)); [|discriminate E]. destruct (fe_returndata f); [discriminate E|].
  destruct (N.leb_spec (nlen input) (nlen mem - (fe_used f + nlen input))); [|discriminate E]. repeat split. lia. lia.
Qed.
(** With other arguments the call does not complete. *)
Lemma refused e en i f name ts ret body input mem g : exports_alloc en i -> exports en i name (endpoint ts ret body) ->
  nlen mem < 2 ^ 32 -> ts <> [] -> (forall ps c, next_tuple (map YPrim ts) (calldata_new input) <> Some (map RPrim ps, c)) ->
  forall r g', call_with_alloc e en i f name input mem g <> (Ok r, g').
Proof.
  intros Ha Hx L Ne W r g' E. destruct (enters_room e en i f name input mem g r g' Ha L E) as (P & Hm & Hr & R).
  rewrite (call_eq e en i f name input mem g Ha L), Hm, Hr in E. set (p := fe_used f + nlen input) in *.
  replace (0 <? nlen input) with true in E by lia. replace (p <=? nlen mem) with true in E by lia. replace (nlen input <=? nlen mem - p) with true in E by lia.
  cbn [andb] in E. rewrite (wasmer_exports e en i name _ _ _ g Hx) in E. unfold endpoint in E.
  set (lo := firstn (N.to_nat p) mem) in *. set (hi := skipn (length input) (skipn (N.to_nat p) mem)) in *.
  assert (Lo : nlen lo = p) by (unfold lo, nlen in *; rewrite firstn_length; lia).
  assert (Lm : nlen (lo ++ input ++ hi) = nlen mem).
  { rewrite !nlen_app, Lo. unfold hi, nlen in *. rewrite !skipn_length. lia. }
  rewrite (prologue_run e ts _ (entry f p (nlen input)) g p lo input hi Ne Lo ltac:(lia) eq_refl) in E.
  destruct (read_args p ts (calldata_new input)) as [hs|] eqn:Eh; [|discriminate E].
  destruct (read_args_next p ts _ _ Eh) as (ps & c & X). exact (W ps c X).
Qed.

(* ------------------------------------------------------------------------------------ *)
(** * The receipt *)

Lemma encodes_formats ts ps input : Forall2 prim_typed ts ps -> encodes_args ps input -> input = formats ps.
Proof.
  intros T (cap & w & E & Sl).
  assert (T' : Forall2 typed (map YPrim ts) (map RPrim ps)) by (clear -T; induction T; constructor; auto).
  rewrite (appends_new _ _ (appends_tuple _ _ T') cap w E) in Sl. rewrite formats_values in Sl. congruence.
Qed.
Lemma main_inv e ret body hs mem f g mem' u f' g' : run_wasm e (main ret body hs mem) f g = (Ok (mem', u, f'), g') ->
  exists rs mem1 f1 g1, run_wasm e (body hs mem) f g = (Ok (mem1, rs, f1), g1) /\ run_wasm e (epilogue ret rs mem1) f1 g1 = (Ok (mem', u, f'), g').
Proof.
  unfold main, cbind. rewrite run_wbind. destruct (run_wasm e (body hs mem) f g) as [[[[mem1 rs] f1]|x|] g1]; try discriminate. eauto 8.
Qed.
Lemma called_inv {I} (i : I) name r x g' : called_with i name r = (Ok x, g') ->
  exists mem' u f', r = (Ok (mem', u, f'), g') /\ x = (mem', [], i, fe_logs f', with_logs [] f').
Proof. destruct r as [[[[mem' u] f']|[msg f']|] g'']; cbn [called_with]; try discriminate. intros E. injection E as <- <-. eauto. Qed.

(** The steps of a call with a successful receipt. *)
Lemma success_steps e en cl g r g' bs : has_code e g (cl_target cl) bs -> exec_call e en cl g = (Some r, g') -> cr_success r = true ->
  exists a mem i f g1 mem2 logs f2 g2,
    run_wasm e (en_instantiate en bs) (env_new a (cl_template cl) (cl_mode cl)) g = (Ok (mem, i, f), g1)
    /\ (exists rets i2, (if 0 <? nlen (cl_input cl) then call_with_alloc e en i (with_memory f) (cl_func cl) (cl_input cl) mem
        else wasmer_call e en i (with_memory f) (cl_func cl) [] mem) g1 = (Ok (mem2, rets, i2, logs, f2), g2))
    /\ cr_returndata r = take_returndata f2 mem2.
Proof.
  intros (t & l & c & Et & El & Ec & Ebs). unfold exec_call. destruct (exec e en cl g) as [[r0|[err lg]|] g0] eqn:E; try discriminate.
  2:{ intros X. injection X as <- <-. unfold call_from_err. cbn. discriminate. }
  intros X _. injection X as -> ->. revert E. unfold exec, load_template.
  unfold sbind at 1. destruct (@unwrap_read failure _ (account_load e (cl_target cl)) g (reads_load e _)) as [(a1 & E1 & R1)|[E1 R1]];
    rewrite R1; [|discriminate].
  unfold sbind at 1. destruct (@unwrap_read failure _ (account_template e (cl_target cl)) g) as [(t' & E2 & R2)|[E2 R2]];
    [apply reads_bind; [apply reads_decode|intros; apply reads_ret]|rewrite R2|rewrite R2; discriminate].
  assert (t' = t) as -> by congruence.
  unfold sbind at 1. destruct (@unwrap_read failure _ (template_sections e t) g (reads_sections e t)) as [(l' & E3 & R3)|[E3 R3]];
    rewrite R3; [|discriminate]. assert (l' = l) as -> by congruence.
  unfold sbind at 1. rewrite R1. unfold sbind at 1.
  destruct (run e en cl l (env_new a1 (cl_template cl) (cl_mode cl)) g) as [[[[mem2 logs] f2]|er|] g2] eqn:Er; try discriminate.
  intros Eo. exists a1. revert Er. unfold run. unfold sbind at 1.
  pose proof (validate_func_usage_reads cl l (env_new a1 (cl_template cl) (cl_mode cl)) g) as RV.
  destruct (validate_func_usage cl l _ g) as [[[]|er|] g0]; cbn [snd] in RV; subst g0; try discriminate.
  unfold sbind at 1. unfold instantiate, sbind at 1. rewrite Ec. cbn [ssome]. unfold sret at 1.
  destruct (en_compile en (cs_code c)); [discriminate|]. rewrite Ebs.
  destruct (run_wasm e (en_instantiate en bs) (env_new a1 (cl_template cl) (cl_mode cl)) g) as [[[[mem i] f1]|[msg f1]|] g1]; try discriminate.
  unfold sbind at 1. destruct (en_has_memory en i); cbn [sassert]; [|discriminate]. unfold sret at 1.
  destruct (func en i (with_memory f1) (cl_func cl) SigUnit); [discriminate|]. unfold sbind at 1.
  destruct ((if 0 <? nlen (cl_input cl) then call_with_alloc e en i (with_memory f1) (cl_func cl) (cl_input cl) mem
       else wasmer_call e en i (with_memory f1) (cl_func cl) [] mem) g1) as [[[[[[mem3 rets] i2] lg] f3]|er|] g3] eqn:E5; try discriminate.
  unfold sret. intros X. injection X as -> -> -> ->.
  exists mem, i, f1, g1, mem2, logs, f2, g2. split; [reflexivity|]. split; [eauto|].
  revert Eo. unfold outcome_to_receipt, sbind at 1. destruct (take_returndata f2 mem2) as [data|]; cbn [ssome]; [|discriminate]. unfold sret at 1.
  unfold sbind. destruct (commit_changes e f2 g2) as [[st|?|] g4]; try discriminate. unfold sret. intros X. injection X as <- _. reflexivity.
Qed.

Lemma ne_of (ts : list pty) ps : Forall2 prim_typed ts ps -> (0 <? nlen (formats ps)) = true <-> ts <> [].
Proof.
  intros T. destruct T as [|t p ts ps T _]; [split; [discriminate|easy]|]. split; [easy|]. intros _. unfold formats. cbn [flat_map].
  destruct (prim_format_nonempty p) as (b & bs & ->). cbn [app]. rewrite nlen_cons. lia.
Qed.

(** The run of the body and of the epilogue behind a successful receipt. *)
Lemma success_main e en cl g r g' bs ts ret body ps : has_code e g (cl_target cl) bs -> compiled en bs (cl_func cl) ts ret body ->
  Forall2 prim_typed ts ps -> encodes_args ps (cl_input cl) ->
  exec_call e en cl g = (Some r, g') -> cr_success r = true ->
  exists hs mem f g1 mem' f' g2, entered mem f hs ps (nlen (cl_input cl)) /\ nlen mem < 2 ^ 32 /\ fe_returndata f = None
    /\ run_wasm e (main ret body hs mem) f g1 = (Ok (mem', tt, f'), g2)
    /\ cr_returndata r = take_returndata f' mem'.
Proof.
  intros Hc (mem0 & i0 & Ei & L & Ha & Hx) T Ein Ex Hs.
  destruct (success_steps e en cl g r g' bs Hc Ex Hs) as (a & mem & i & f & g1 & mem2 & logs & f2 & g2 & E1 & (rets & i2 & E2) & Er).
  rewrite Ei in E1. cbn [run_wasm] in E1. injection E1 as <- <- <- <-.
  rewrite (encodes_formats ts ps _ T Ein) in E2 |- *.
  destruct (0 <? nlen (formats ps)) eqn:C.
  - pose proof (proj1 (ne_of ts ps T) C) as Ne.
    destruct (enters_room e en i0 _ _ _ _ _ _ _ Ha L E2) as (_ & Hm & Hr & R).
    destruct (enters e en i0 (with_memory (env_new a (cl_template cl) (cl_mode cl))) (cl_func cl) ts ret body ps mem0 g Ha Hx L T Ne Hm Hr R)
      as (hs & mem1 & f1 & D & Ln & _ & Hr1 & _ & E). rewrite E in E2. apply called_inv in E2 as (mem' & [] & f' & E2 & X).
    injection X as -> _ _ _ ->. exists hs, mem1, f1, g, mem', f', g2. rewrite Ln. repeat (split; [assumption|]). exact Er.
  - assert (ts = []) as -> by (destruct ts; [reflexivity|]; exfalso; assert (0 <? nlen (formats ps) = true) by (apply (ne_of _ _ T); discriminate); congruence).
    inversion T; subst ps. rewrite (wasmer_exports e en i0 _ _ _ _ _ Hx) in E2. apply called_inv in E2 as (mem' & [] & f' & E2 & X).
    injection X as -> _ _ _ ->. exists [], mem0, (with_memory (env_new a (cl_template cl) (cl_mode cl))), g, mem', f', g2.
    split; [split; constructor|]. split; [exact L|]. split; [reflexivity|]. split; [exact E2|exact Er].
Qed.
