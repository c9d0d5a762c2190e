(** Proofs about the wasm buffers. *)
From Coq Require Import List NArith ZArith Bool Lia ZifyBool ZifyNat ZifyN.
From Verif Require Import Base Text CodecModel BufferModel BufferSpec.
Import ListNotations.
Open Scope N_scope.

(** How a store looks in memory. *)
Definition frame (d : bytes) : bytes := be_bytes 4 (nlen d) ++ be_bytes 4 (nlen d) ++ d.
Definition image (s : store) : heap := map (fun '(p, d) => (p, frame d)) s.
Definition fits (s : store) : Prop := Forall (fun x => nlen (snd x) + 8 <= isize_max) s.
Definition kept (h : heap) (s : store) : Prop := h = image s /\ packed (footprint s) /\ fits s.

Lemma nlen_repeat {A} (x : A) n : nlen (repeat x n) = N.of_nat n.
Proof. unfold nlen. now rewrite repeat_length. Qed.
Lemma nlen_be4 n : nlen (be_bytes 4 n) = 4.
Proof. unfold nlen. now rewrite be_bytes_length. Qed.
Lemma frame_size d : nlen (frame d) = nlen d + 8.
Proof. unfold frame. rewrite !nlen_app, !nlen_be4. lia. Qed.
Lemma image_shape s : shape (image s) = footprint s.
Proof.
  unfold shape, image, footprint. rewrite map_map. apply map_ext. intros [p d]. now rewrite frame_size.
Qed.

Lemma slice_mid a b c : slice (a ++ b ++ c) (nlen a) (nlen b) = b.
Proof.
  unfold slice, nlen. rewrite !Nat2N.id, skipn_app, skipn_all, Nat.sub_diag. cbn [skipn app].
  rewrite firstn_app, firstn_all, Nat.sub_diag. cbn [firstn]. apply app_nil_r.
Qed.
Lemma patch_mid a b c bs : nlen bs = nlen b -> patch (a ++ b ++ c) (nlen a) bs = a ++ bs ++ c.
Proof.
  intros H. unfold patch. rewrite H. unfold nlen. rewrite Nat2N.id, firstn_app, firstn_all, Nat.sub_diag. cbn [firstn].
  rewrite app_nil_r. do 2 f_equal. replace (N.to_nat (N.of_nat (length a) + N.of_nat (length b))) with (length (a ++ b))%nat
    by (rewrite app_length; lia).
  rewrite app_assoc, skipn_app, skipn_all, Nat.sub_diag. reflexivity.
Qed.
Lemma cut (d : bytes) off n : off + n <= nlen d -> exists a b c, d = a ++ b ++ c /\ nlen a = off /\ nlen b = n.
Proof.
  intros H. exists (firstn (N.to_nat off) d), (firstn (N.to_nat n) (skipn (N.to_nat off) d)), (skipn (N.to_nat n) (skipn (N.to_nat off) d)).
  rewrite !firstn_skipn. split; [reflexivity|]. unfold nlen in *. rewrite !firstn_length, skipn_length. lia.
Qed.

(* ------------------------------------------------------------------------------------ *)
(** * Accesses to a live block *)

Lemma packed_other s p d q e from n :
  packed (footprint ((q, e) :: s)) -> content p s = Some d -> 0 < n -> from + n <= nlen d + 8 ->
  holds (p + from) n (q, frame e) = false /\ p <> q.
Proof.
  intros [H _] HC Hn Hr. unfold holds. cbn [fst snd]. rewrite frame_size.
  assert (K : In (p, nlen d + 8) (footprint s)).
  { clear H. induction s as [|[k x] s IH]; cbn [content] in HC; [discriminate|]. cbn [footprint map].
    destruct (N.eqb_spec p k) as [->|]; [left; congruence|right; auto]. }
  rewrite Forall_forall in H. apply H in K. unfold apart in K. cbn [fst snd] in K. lia.
Qed.
Lemma find_live s p d from n : packed (footprint s) -> content p s = Some d -> 0 < n -> from + n <= nlen d + 8 ->
  find_block (p + from) n (image s) = Some (p, frame d).
Proof.
  intros HP HC Hn Hr. induction s as [|[q e] s IH]; cbn [content] in HC; [discriminate|]. cbn [image map find_block].
  destruct (N.eqb_spec p q) as [->|D].
  - apply Some_inj in HC. subst. unfold holds. cbn [fst snd]. rewrite frame_size.
    replace ((q <=? q + from) && (q + from + n <=? q + (nlen d + 8))) with true by lia. reflexivity.
  - rewrite (proj1 (packed_other s p d q e from n HP HC Hn Hr)). apply IH; [apply HP|exact HC].
Qed.
Lemma peek_live s p d from a b c : packed (footprint s) -> content p s = Some d -> frame d = a ++ b ++ c -> nlen a = from ->
  forall n, nlen b = n -> peek (p + from) n (image s) = (Ok b, image s).
Proof.
  intros HP HC HF Ha n Hb. unfold peek. destruct (N.eqb_spec n 0) as [->|D].
  - destruct b; [reflexivity|]. rewrite nlen_cons in Hb. lia.
  - rewrite (find_live s p d from n HP HC).
    + rewrite HF. replace (p + from - p) with (nlen a) by lia. rewrite <- Hb, slice_mid. reflexivity.
    + lia.
    + rewrite <- frame_size, HF, !nlen_app. lia.
Qed.
Lemma content_in p s d : content p s = Some d -> In (p, d) s.
Proof.
  induction s as [|[q e] s IH]; cbn [content]; [discriminate|]. destruct (N.eqb_spec p q) as [->|]; [intros [= ->]; now left|right; auto].
Qed.
(** No pointer twice. *)
Lemma packed_once s p d : packed (footprint ((p, d) :: s)) -> content p s = None.
Proof.
  intros [H _]. destruct (content p s) as [e|] eqn:E; [|reflexivity]. exfalso. apply content_in in E.
  rewrite Forall_forall in H. specialize (H (p, nlen e + 8)). unfold apart in H. cbn [fst snd] in H.
  assert (K : In (p, nlen e + 8) (footprint s)) by (apply in_map_iff; exists (p, e); split; [reflexivity|exact E]).
  apply H in K. lia.
Qed.
Lemma absent_map p s (f : N * bytes -> N * bytes) : content p s = None -> map (fun x => if fst x =? p then f x else x) s = s.
Proof.
  induction s as [|[q e] s IH]; cbn [content map]; [reflexivity|]. destruct (N.eqb_spec p q) as [->|D]; [discriminate|].
  intros H. cbn [fst]. replace (q =? p) with false by lia. now rewrite IH.
Qed.
Lemma absent_filter p s : content p s = None -> filter (fun x => negb (fst x =? p)) s = s.
Proof.
  induction s as [|[q e] s IH]; cbn [content filter]; [reflexivity|]. destruct (N.eqb_spec p q) as [->|D]; [discriminate|].
  intros H. cbn [fst]. replace (q =? p) with false by lia. cbn [negb]. now rewrite IH.
Qed.
Definition upd (p : N) (d : bytes) (s : store) : store := map (fun x => if fst x =? p then (p, d) else x) s.
Lemma upd_cons p d q e s : upd p d ((q, e) :: s) = (if q =? p then (p, d) else (q, e)) :: upd p d s.
Proof. reflexivity. Qed.
Lemma upd_same s p d : packed (footprint s) -> content p s = Some d -> upd p d s = s.
Proof.
  induction s as [|[q e] s IH]; intros HP HC; [reflexivity|]. rewrite upd_cons. cbn [content] in HC. rewrite N.eqb_sym.
  destruct (N.eqb_spec p q) as [->|D].
  - injection HC as ->. f_equal. apply (absent_map q s (fun _ => (q, d))). exact (packed_once s q d HP).
  - f_equal. apply IH; [apply HP|exact HC].
Qed.
Lemma poke_live s p d off a b c bs : packed (footprint s) -> content p s = Some d -> d = a ++ b ++ c -> nlen a = off ->
  nlen bs = nlen b ->
  poke (p + 8 + off) bs (image s) = (Ok tt, image (upd p (a ++ bs ++ c) s)).
Proof.
  intros HP HC HF Ha Hb. unfold poke. destruct (N.eqb_spec (nlen bs) 0) as [Z|D].
  - destruct bs; [|rewrite nlen_cons in Z; lia]. destruct b; [|rewrite nlen_cons in Hb; change (nlen (@nil N)) with 0 in Hb; lia].
    cbn [app] in *. subst d. rewrite upd_same by assumption. reflexivity.
  - replace (p + 8 + off) with (p + (8 + off)) by lia.
    assert (L : nlen (a ++ bs ++ c) = nlen d) by (subst d; rewrite !nlen_app; lia).
    assert (F : forall q, patch (frame d) (q + (8 + off) - q) bs = frame (a ++ bs ++ c)).
    { intros q. replace (q + (8 + off) - q) with (nlen (be_bytes 4 (nlen d) ++ be_bytes 4 (nlen d) ++ a))
        by (rewrite !nlen_app, !nlen_be4; lia).
      unfold frame. rewrite L. rewrite HF at 3.
      replace (be_bytes 4 (nlen d) ++ be_bytes 4 (nlen d) ++ a ++ b ++ c)
        with ((be_bytes 4 (nlen d) ++ be_bytes 4 (nlen d) ++ a) ++ b ++ c) by (rewrite <- !app_assoc; reflexivity).
      rewrite patch_mid by exact Hb. rewrite <- !app_assoc. reflexivity. }
    assert (R : 8 + off + nlen bs <= nlen d + 8) by (subst d; rewrite !nlen_app; lia).
    assert (K : poke_in (p + (8 + off)) bs (image s) = Some (image (upd p (a ++ bs ++ c) s))).
    { revert HP HC. induction s as [|[q e] s IH]; intros HP HC; [discriminate HC|]. cbn [image map poke_in]. rewrite upd_cons. cbn [content] in HC.
      rewrite (N.eqb_sym q p). destruct (N.eqb_spec p q) as [->|D2].
      - injection HC as ->. unfold holds at 1. cbn [fst snd]. rewrite frame_size.
        replace ((q <=? q + (8 + off)) && (q + (8 + off) + nlen bs <=? q + (nlen d + 8))) with true by lia.
        rewrite F. replace (upd q (a ++ bs ++ c) s) with s; [reflexivity|]. symmetry.
        apply (absent_map q s (fun _ => (q, a ++ bs ++ c))). exact (packed_once s q d HP).
      - destruct (packed_other s p d q e (8 + off) (nlen bs) HP HC ltac:(lia) R) as [-> _].
        fold (image s). rewrite IH; [reflexivity|apply HP|exact HC]. }
    rewrite K. reflexivity.
Qed.
Lemma dealloc_live s p d : packed (footprint s) -> content p s = Some d ->
  dealloc p (nlen d + 8) (image s) = (Ok tt, image (filter (fun x => negb (fst x =? p)) s)).
Proof.
  intros HP HC. unfold dealloc.
  assert (K : dealloc_in p (nlen d + 8) (image s) = Some (image (filter (fun x => negb (fst x =? p)) s))); [|now rewrite K].
  revert HP HC. induction s as [|[q e] s IH]; intros HP HC; [discriminate HC|]. cbn [image map dealloc_in filter fst snd]. cbn [content] in HC.
  rewrite (N.eqb_sym q p). destruct (N.eqb_spec p q) as [->|D].
  - injection HC as ->. rewrite frame_size, N.eqb_refl. cbn [andb negb]. fold (image s).
    rewrite (absent_filter q s (packed_once s q d HP)). reflexivity.
  - cbn [andb negb map]. fold (image s). rewrite IH; [reflexivity|apply HP|exact HC].
Qed.

(* ------------------------------------------------------------------------------------ *)
(** * Buffer operations on a live buffer *)

Definition whole (p : N) (d : bytes) : buffer := mkBuffer p (nlen d + 8) (nlen d + 8).

Lemma hbind_ok {A B} (m : hm A) (k : A -> hm B) h a h' : m h = (Ok a, h') -> hbind m k h = k a h'.
Proof. intros H. unfold hbind. now rewrite H. Qed.
Lemma hassert_ok {B} b (k : unit -> hm B) h : b = true -> hbind (hassert b) k h = k tt h.
Proof. intros ->. reflexivity. Qed.

Lemma header_len s p d b : kept (image s) s -> content p s = Some d -> bf_ptr b = p -> 8 <= bf_len b ->
  buf_len b (image s) = (Ok (nlen d), image s) /\ buf_capacity b (image s) = (Ok (nlen d), image s).
Proof.
  intros (_ & HP & HF) HC Hp Hl. unfold fits in HF. rewrite Forall_forall in HF. pose proof (HF _ (content_in _ _ _ HC)) as Hd. cbn [snd] in Hd.
  assert (V : be_value (be_bytes 4 (nlen d)) = nlen d).
  { apply be_value_be_bytes_small. change (256 ^ N.of_nat 4) with 4294967296. unfold isize_max in Hd. lia. }
  unfold buf_len, buf_capacity, read_range. split.
  - erewrite hbind_ok; [|rewrite hassert_ok by lia; rewrite Hp; change (4 - 0) with 4;
      apply (peek_live s p d 0 [] (be_bytes 4 (nlen d)) (be_bytes 4 (nlen d) ++ d) HP HC); [reflexivity|reflexivity|apply nlen_be4]].
    unfold hret. now rewrite V.
  - erewrite hbind_ok; [|rewrite hassert_ok by lia; rewrite Hp; change (8 - 4) with 4;
      apply (peek_live s p d 4 (be_bytes 4 (nlen d)) (be_bytes 4 (nlen d)) d HP HC); [reflexivity|apply nlen_be4|apply nlen_be4]].
    unfold hret. now rewrite V.
Qed.
Lemma from_ptr_live s p d : kept (image s) s -> content p s = Some d -> from_ptr p (image s) = (Ok (whole p d), image s).
Proof.
  intros HK HC. unfold from_ptr. cbv zeta.
  destruct (header_len s p d (mkBuffer p header_size header_size) HK HC eq_refl ltac:(reflexivity)) as [E1 E2].
  rewrite (hbind_ok _ _ _ _ _ E1), (hbind_ok _ _ _ _ _ E2). destruct HK as (_ & HP & HF). unfold fits in HF. rewrite Forall_forall in HF.
  pose proof (HF _ (content_in _ _ _ HC)) as Hd. cbn [snd] in Hd. unfold isize_max in Hd.
  rewrite hassert_ok by (unfold header_size, u32_max; lia). reflexivity.
Qed.
Lemma data_live s p d : kept (image s) s -> content p s = Some d -> buf_data (whole p d) (image s) = (Ok d, image s).
Proof.
  intros (_ & HP & HF) HC. unfold buf_data, read_range. cbn [whole bf_len bf_ptr]. rewrite hassert_ok by lia.
  apply (peek_live s p d 8 (be_bytes 4 (nlen d) ++ be_bytes 4 (nlen d)) d [] HP HC).
  - unfold frame. now rewrite app_nil_r, <- app_assoc.
  - rewrite nlen_app, !nlen_be4. reflexivity.
  - lia.
Qed.

(* ------------------------------------------------------------------------------------ *)
(** * Allocation *)

Lemma peek_head p c h from a b e n : c = a ++ b ++ e -> nlen a = from -> nlen b = n ->
  peek (p + from) n ((p, c) :: h) = (Ok b, (p, c) :: h).
Proof.
  intros -> Ha Hb. unfold peek. destruct (N.eqb_spec n 0) as [->|D].
  - destruct b; [reflexivity|]. rewrite nlen_cons in Hb. lia.
  - cbn [find_block]. unfold holds. cbn [fst snd]. rewrite !nlen_app.
    replace ((p <=? p + from) && (p + from + n <=? p + (nlen a + (nlen b + nlen e)))) with true by lia.
    replace (p + from - p) with (nlen a) by lia. rewrite <- Hb, slice_mid. reflexivity.
Qed.
Lemma poke_head p c h from a b e bs : c = a ++ b ++ e -> nlen a = from -> nlen bs = nlen b ->
  poke (p + from) bs ((p, c) :: h) = (Ok tt, (p, a ++ bs ++ e) :: h).
Proof.
  intros -> Ha Hb. unfold poke. destruct (N.eqb_spec (nlen bs) 0) as [Z|D].
  - destruct bs; [|rewrite nlen_cons in Z; lia]. destruct b; [|rewrite nlen_cons in Hb; change (nlen (@nil N)) with 0 in Hb; lia]. reflexivity.
  - cbn [poke_in]. unfold holds. cbn [fst snd]. rewrite !nlen_app.
    replace ((p <=? p + from) && (p + from + nlen bs <=? p + (nlen a + (nlen b + nlen e)))) with true by lia.
    replace (p + from - p) with (nlen a) by lia. rewrite patch_mid by exact Hb. reflexivity.
Qed.
Lemma read_head p c h b from to x y z : bf_ptr b = p -> to <= bf_len b -> c = x ++ y ++ z -> nlen x = from -> nlen y = to - from -> from <= to ->
  read_range b from to ((p, c) :: h) = (Ok y, (p, c) :: h).
Proof.
  intros Hp Hl Hc Hx Hy Ht. unfold read_range. rewrite hassert_ok by lia. rewrite Hp.
  exact (peek_head p c h from x y z (to - from) Hc Hx Hy).
Qed.
Lemma write_head p c h b from to x y z bs : bf_ptr b = p -> to <= bf_len b -> c = x ++ y ++ z -> nlen x = from -> nlen y = to - from -> from <= to ->
  nlen bs = to - from ->
  write_range b from to bs ((p, c) :: h) = (Ok tt, (p, x ++ bs ++ z) :: h).
Proof.
  intros Hp Hl Hc Hx Hy Ht Hb. unfold write_range. rewrite hassert_ok by lia. rewrite Hp.
  exact (poke_head p c h from x y z bs Hc Hx ltac:(lia)).
Qed.

Lemma zeros_cut len : repeat 0 (N.to_nat (len + 8)) = repeat 0 4 ++ repeat 0 4 ++ repeat 0 (N.to_nat len).
Proof. rewrite <- !repeat_app. f_equal. lia. Qed.

(** Either a new zeroed buffer or a trap. *)
Lemma buf_alloc_spec al s len : allocates al -> kept (image s) s ->
  let d := repeat 0 (N.to_nat len) in
  (exists p, buf_alloc al len (image s) = (Ok (whole p d), image ((p, d) :: s)) /\ kept (image ((p, d) :: s)) ((p, d) :: s) /\ granted al s d p)
  \/ (buf_alloc al len (image s) = (Panic, image s) /\ (2147483647 < nlen d + 8 \/ al (footprint s) (nlen d + 8) = None)).
Proof.
  intros HA HK. cbv zeta. set (d := repeat 0 (N.to_nat len)).
  assert (Hd : nlen d = len) by (unfold d; rewrite nlen_repeat; lia). rewrite Hd.
  unfold buf_alloc. change (len + header_size) with (len + 8).
  destruct (len + 8 <=? u32_max) eqn:E1.
  2:{ right. split; [reflexivity|]. left. unfold u32_max, isize_max in *. lia. }
  rewrite hassert_ok by reflexivity.
  destruct (isize_max <? len + 8) eqn:E2; [right; split; [unfold hbind at 1, zeroed; now rewrite E2|left; unfold isize_max in E2; lia]|].
  destruct (al (footprint s) (len + 8)) as [p|] eqn:E3;
    [|right; split; [unfold hbind at 1, zeroed; now rewrite E2, image_shape, E3|now right]].
  erewrite hbind_ok; [|unfold zeroed; rewrite E2, image_shape, E3; reflexivity].
  left. exists p. destruct HK as (_ & HP & HF).
  destruct (HA (footprint s) (len + 8) p HP ltac:(lia) E3) as [Hap Hmax].
  assert (V : be_value (be_bytes 4 len) = len).
  { apply be_value_be_bytes_small. change (256 ^ N.of_nat 4) with 4294967296. unfold isize_max in E2. lia. }
  set (b := mkBuffer p (len + 8) (len + 8)). rewrite zeros_cut. fold d.
  assert (Eb : bf_ptr b = p) by reflexivity. assert (El : 8 <= bf_len b) by (cbn [b bf_len]; lia).
  assert (S1 : set_capacity b len ((p, repeat 0 4 ++ repeat 0 4 ++ d) :: image s)
               = (Ok tt, (p, repeat 0 4 ++ be_bytes 4 len ++ d) :: image s)).
  { unfold set_capacity, buf_len.
    erewrite hbind_ok; [|erewrite hbind_ok; [|apply (read_head p _ (image s) b 0 4 [] (repeat 0 4) (repeat 0 4 ++ d) Eb); try reflexivity; lia];
      unfold hret; reflexivity].
    change (be_value (repeat 0 4)) with 0. rewrite hassert_ok by lia. rewrite hassert_ok by (unfold header_size; lia).
    rewrite hassert_ok by (unfold header_size; cbn [b bf_len]; lia).
    apply (write_head p _ (image s) b 4 8 (repeat 0 4) (repeat 0 4) d _ Eb); try reflexivity; try lia. }
  rewrite (hbind_ok _ _ _ _ _ S1). clear S1.
  assert (S2 : set_len b len ((p, repeat 0 4 ++ be_bytes 4 len ++ d) :: image s) = (Ok tt, (p, be_bytes 4 len ++ be_bytes 4 len ++ d) :: image s)).
  { unfold set_len, buf_capacity.
    erewrite hbind_ok; [|erewrite hbind_ok; [|apply (read_head p _ (image s) b 4 8 (repeat 0 4) (be_bytes 4 len) d Eb); try reflexivity; try lia];
      unfold hret; reflexivity].
    rewrite V. rewrite hassert_ok by lia.
    apply (write_head p _ (image s) b 0 4 [] (repeat 0 4) (be_bytes 4 len ++ d) _ Eb); try reflexivity; try lia. }
  rewrite (hbind_ok _ _ _ _ _ S2). clear S2. unfold hret.
  assert (I : (p, be_bytes 4 len ++ be_bytes 4 len ++ d) :: image s = image ((p, d) :: s)).
  { cbn [image map]. unfold frame. now rewrite Hd. }
  rewrite I. assert (W : b = whole p d) by (unfold b, whole; now rewrite Hd). rewrite W.
  split; [reflexivity|].
  assert (PK : packed (footprint ((p, d) :: s))) by (cbn [footprint map packed]; rewrite Hd; split; assumption).
  split; [|split; [exact (packed_once s p d PK)|split; [unfold isize_max in E2; lia|now rewrite Hd]]]. split; [reflexivity|]. split; [exact PK|].
  constructor; [cbn [snd]; lia|exact HF].
Qed.

Lemma alloc_marked_spec al s marker data : allocates al -> kept (image s) s ->
  let d := marker :: data in
  (exists p, alloc_marked al marker data (image s) = (Ok (whole p d), image ((p, d) :: s)) /\ kept (image ((p, d) :: s)) ((p, d) :: s) /\ granted al s d p)
  \/ (alloc_marked al marker data (image s) = (Panic, image s) /\ (2147483647 < nlen d + 8 \/ al (footprint s) (nlen d + 8) = None)).
Proof.
  intros HA HK. cbv zeta. set (d := marker :: data). assert (Hd : nlen d = nlen data + 1) by (unfold d; rewrite nlen_cons; lia).
  unfold alloc_marked. destruct (nlen data <=? u32_max) eqn:E1.
  2:{ right. split; [reflexivity|]. left. unfold u32_max, isize_max in *. lia. }
  rewrite hassert_ok by reflexivity. destruct (nlen data + 1 <=? u32_max) eqn:E2.
  2:{ right. split; [reflexivity|]. left. unfold u32_max, isize_max in *. lia. }
  rewrite hassert_ok by reflexivity.
  destruct (buf_alloc_spec al s (nlen data + 1) HA HK) as [(p & E & K & C)|[E K]].
  - left. exists p. rewrite (hbind_ok _ _ _ _ _ E). clear E.
    set (z := repeat 0 (N.to_nat (nlen data + 1))) in *.
    assert (Hz : nlen z = nlen data + 1) by (unfold z; rewrite nlen_repeat; lia).
    assert (Ez : z = [0] ++ repeat 0 (length data)).
    { unfold z. replace (N.to_nat (nlen data + 1)) with (S (length data)) by (unfold nlen; lia). reflexivity. }
    assert (Ew : whole p z = whole p d) by (unfold whole; now rewrite Hz, Hd).
    rewrite Ew. cbn [image map]. fold (image s). unfold frame at 1. rewrite Hz.
    set (hd := be_bytes 4 (nlen data + 1)).
    assert (S1 : write_range (whole p d) 8 9 [marker] ((p, hd ++ hd ++ z) :: image s)
                 = (Ok tt, (p, (hd ++ hd) ++ [marker] ++ repeat 0 (length data)) :: image s)).
    { apply (write_head p _ (image s) (whole p d) 8 9 (hd ++ hd) [0] (repeat 0 (length data)) [marker]); try reflexivity.
      - cbn [whole bf_len]. lia.
      - rewrite Ez, <- app_assoc. reflexivity.
      - lia. }
    rewrite (hbind_ok _ _ _ _ _ S1). clear S1.
    assert (S2 : write_range (whole p d) 9 (bf_len (whole p d)) data ((p, (hd ++ hd) ++ [marker] ++ repeat 0 (length data)) :: image s)
                 = (Ok tt, (p, ((hd ++ hd) ++ [marker]) ++ data ++ []) :: image s)).
    { apply (write_head p _ (image s) (whole p d) 9 _ ((hd ++ hd) ++ [marker]) (repeat 0 (length data)) [] data); try reflexivity.
      - rewrite app_nil_r, <- app_assoc. reflexivity.
      - cbn [whole bf_len]. rewrite nlen_repeat, Hd. unfold nlen. lia.
      - cbn [whole bf_len]. lia.
      - cbn [whole bf_len]. lia. }
    rewrite (hbind_ok _ _ _ _ _ S2). clear S2. unfold hret.
    assert (I : ((hd ++ hd) ++ [marker]) ++ data ++ [] = frame d).
    { unfold frame. rewrite Hd. fold hd. rewrite app_nil_r, <- !app_assoc. reflexivity. }
    rewrite I. split; [reflexivity|]. split; [|destruct C as (C1 & C2 & C3); rewrite Hz in C2, C3; split; [exact C1|rewrite Hd; split; assumption]].
    destruct K as (_ & PK & FK). split; [reflexivity|]. split.
    + cbn [footprint map] in *. rewrite Hz in PK. rewrite Hd. exact PK.
    + inversion FK; subst. constructor; [cbn [snd] in *; lia|assumption].
  - right. rewrite nlen_repeat, N2Nat.id in K. rewrite Hd. split; [|exact K]. unfold hbind at 1. now rewrite E.
Qed.

(* ------------------------------------------------------------------------------------ *)
(** * One step of a client *)

Lemma footprint_filter s p : packed (footprint s) -> packed (footprint (filter (fun x => negb (fst x =? p)) s)).
Proof.
  induction s as [|[q e] s IH]; [exact id|]. cbn [footprint map packed filter fst]. intros [H1 H2].
  destruct (negb (q =? p)); [|apply IH; exact H2]. cbn [map packed]. split; [|apply IH; exact H2].
  rewrite Forall_forall in *. intros x Hx. apply H1. apply in_map_iff in Hx as (y & <- & Hy). apply in_map_iff. exists y.
  split; [reflexivity|]. apply filter_In in Hy. apply Hy.
Qed.
Lemma footprint_upd s p d d' : content p s = Some d -> packed (footprint s) -> nlen d' = nlen d -> footprint (upd p d' s) = footprint s.
Proof.
  intros HC HP HL. induction s as [|[q e] s IH]; [reflexivity|]. rewrite upd_cons. cbn [footprint map]. cbn [content] in HC.
  rewrite (N.eqb_sym q p). destruct (N.eqb_spec p q) as [->|D].
  - injection HC as ->. rewrite HL. replace (upd q d' s) with s; [reflexivity|]. symmetry.
    apply (absent_map q s (fun _ => (q, d'))). exact (packed_once s q d HP).
  - f_equal. apply IH; [exact HC|apply HP].
Qed.
Lemma fits_upd s p d d' : content p s = Some d -> fits s -> nlen d' = nlen d -> fits (upd p d' s).
Proof.
  intros HC HF HL. assert (Hd : nlen d' + 8 <= isize_max).
  { unfold fits in HF. rewrite Forall_forall in HF. rewrite HL. exact (HF _ (content_in _ _ _ HC)). }
  unfold fits, upd in *. rewrite Forall_forall in *. intros x Hx. apply in_map_iff in Hx as (y & <- & Hy).
  destruct (fst y =? p); [exact Hd|apply HF; exact Hy].
Qed.

Lemma client_step_ok al o h s : allocates al -> kept h s -> proper s o ->
  exists s', required al s o (fst (client_step al o h)) s' /\ kept (snd (client_step al o h)) s'.
Proof.
  intros HA HK HO. pose proof HK as (-> & HP & HF).
  destruct o as [n|p|p|p off bs|p off n|f p]; cbn [client_step required proper] in *.
  - unfold wasm_alloc. destruct (n <? 0)%Z eqn:E; [exists s; split; [split; reflexivity|exact HK]|].
    destruct (buf_alloc_spec al s (Z.to_N n) HA HK) as [(p & B & K & C)|[B K]];
      replace (N.to_nat (Z.to_N n)) with (Z.to_nat n) in * by lia.
    + exists ((p, repeat 0 (Z.to_nat n)) :: s). rewrite (hbind_ok _ _ _ _ _ B). cbn [reply_of hret fst snd whole bf_ptr]. split; [|exact K].
      left. exists p. split; [reflexivity|]. split; [exact C|reflexivity].
    + exists s. unfold hbind. rewrite B. cbn [reply_of fst snd]. split; [|exact HK]. right. repeat split. exact K.
  - destruct (content p s) as [d|] eqn:C; [|contradiction]. unfold wasm_free.
    rewrite (hbind_ok _ _ _ _ _ (from_ptr_live s p d HK C)). unfold buf_free. cbn [whole bf_ptr bf_cap].
    rewrite (dealloc_live s p d HP C). cbn [reply_of fst snd]. eexists. split; [split; reflexivity|].
    split; [reflexivity|]. split; [now apply footprint_filter|]. unfold fits in *. rewrite Forall_forall in *. intros x Hx.
    apply filter_In in Hx. now apply HF.
  - destruct (content p s) as [d|] eqn:C; [|contradiction]. unfold wasm_buffer_length.
    rewrite (hbind_ok _ _ _ _ _ (from_ptr_live s p d HK C)).
    destruct (header_len s p d (whole p d) HK C eq_refl ltac:(cbn [whole bf_len]; lia)) as [E _]. rewrite (hbind_ok _ _ _ _ _ E).
    unfold fits in HF. rewrite Forall_forall in HF. pose proof (HF _ (content_in _ _ _ C)) as Hd. cbn [snd] in Hd. unfold isize_max in Hd.
    rewrite hassert_ok by lia. cbn [reply_of hret fst snd]. exists s. split; [|exact HK]. exists d. repeat split.
  - destruct HO as (d & C & Hr). unfold wasm_buffer_data.
    erewrite hbind_ok; [|rewrite (hbind_ok _ _ _ _ _ (from_ptr_live s p d HK C)); unfold hret; reflexivity]. cbn [whole bf_ptr].
    destruct (cut d off (nlen bs) Hr) as (a & b & c & Hd & Ha & Hb).
    rewrite (poke_live s p d off a b c bs HP C Hd Ha ltac:(lia)). cbn [reply_of fst snd].
    eexists. split; [exists a, b, c; rewrite <- Hd; repeat split; assumption|].
    assert (L : nlen (a ++ bs ++ c) = nlen d) by (subst d; rewrite !nlen_app; lia).
    split; [reflexivity|]. split; [|exact (fits_upd s p d _ C HF L)].
    change (map _ s) with (upd p (a ++ bs ++ c) s). rewrite (footprint_upd s p d _ C HP L). exact HP.
  - destruct HO as (d & C & Hr). unfold wasm_buffer_data.
    erewrite hbind_ok; [|rewrite (hbind_ok _ _ _ _ _ (from_ptr_live s p d HK C)); unfold hret; reflexivity]. cbn [whole bf_ptr].
    destruct (cut d off n Hr) as (a & b & c & Hd & Ha & Hb).
    replace (p + 8 + off) with (p + (8 + off)) by lia.
    rewrite (peek_live s p d (8 + off) (be_bytes 4 (nlen d) ++ be_bytes 4 (nlen d) ++ a) b c HP C).
    + cbn [reply_of fst snd]. exists s. split; [exists a, b, c; rewrite <- Hd; repeat split; assumption|exact HK].
    + unfold frame. rewrite Hd at 3. rewrite <- !app_assoc. reflexivity.
    + rewrite !nlen_app, !nlen_be4. lia.
    + exact Hb.
  - destruct (content p s) as [d|] eqn:C; [|contradiction]. unfold wasm_call_raw.
    rewrite (hbind_ok _ _ _ _ _ (from_ptr_live s p d HK C)), (hbind_ok _ _ _ _ _ (data_live s p d HK C)).
    destruct (utf8_valid d) eqn:U.
    2:{ exists s. split; [|exact HK]. exists d. rewrite U. repeat split. }
    rewrite hassert_ok by reflexivity.
    assert (G : forall marker out, exists s',
      news al (marker :: out) s (fst (reply_of YPtr ((let% r := alloc_marked al marker out in hret (bf_ptr r)) (image s)))) s'
      /\ kept (snd (reply_of YPtr ((let% r := alloc_marked al marker out in hret (bf_ptr r)) (image s)))) s').
    { intros marker out. destruct (alloc_marked_spec al s marker out HA HK) as [(q & B & K & N)|[B K]].
      - exists ((q, marker :: out) :: s). rewrite (hbind_ok _ _ _ _ _ B). cbn [reply_of hret fst snd whole bf_ptr]. split; [|exact K].
        left. exists q. split; [reflexivity|]. split; [exact N|reflexivity].
      - exists s. unfold hbind. rewrite B. cbn [reply_of fst snd]. split; [|exact HK]. right. repeat split. exact K. }
    destruct (f d) as [out|text|] eqn:Ef.
    + destruct (G ok_marker out) as (s' & N & K). exists s'. split; [|exact K]. exists d. rewrite U, Ef. split; [reflexivity|exact N].
    + destruct (G err_marker text) as (s' & N & K). exists s'. split; [|exact K]. exists d. rewrite U, Ef. split; [reflexivity|exact N].
    + exists s. split; [|exact HK]. exists d. rewrite U, Ef. repeat split.
Qed.

Lemma client_run_ok al ops : forall h s, allocates al -> kept h s ->
  keeps_rules al s (combine ops (fst (client_run al ops h))) ->
  exists s', history al s (combine ops (fst (client_run al ops h))) s' /\ kept (snd (client_run al ops h)) s'.
Proof.
  induction ops as [|o ops IH]; intros h s HA HK HR; cbn [client_run fst snd combine].
  - exists s. split; [constructor|exact HK].
  - cbn [client_run] in HR. destruct (client_step al o h) as [r h1] eqn:E. destruct (client_run al ops h1) as [l h2] eqn:E2.
    cbn [fst snd combine keeps_rules] in *. destruct HR as [HO HR].
    destruct (client_step_ok al o h s HA HK HO) as (s1 & Q & K). rewrite E in Q, K. cbn [fst snd] in Q, K.
    specialize (IH h1 s1 HA K). rewrite E2 in IH. cbn [fst snd] in IH. destruct (IH (HR s1 Q)) as (s2 & H2 & K2).
    exists s2. split; [|exact K2]. econstructor; eauto.
Qed.
