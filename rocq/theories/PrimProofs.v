From Coq Require Import List NArith ZArith Bool Lia Arith.
From Coq Require Import ZifyBool ZifyNat ZifyN.
From Verif Require Import Base CodecModel CodecSpec CodecProofs SectionModel SectionSpec SectionProofs PrimSpec.
Import ListNotations.
Open Scope N_scope.

Ltac divs := zify; Z.to_euclidean_division_equations; lia.

Lemma utf8_valid_app c r : scalar c -> utf8_valid (utf8_bytes c ++ r) = utf8_valid r.
Proof.
  intros H. unfold utf8_bytes.
  destruct (N.ltb_spec c 128) as [H1|H1].
  { cbn [app utf8_valid]. assert (X : c <? 128 = true) by lia. now rewrite X. }
  destruct (N.ltb_spec c 2048) as [H2|H2].
  { cbn [app utf8_valid]. unfold in_range, is_cont, in_range.
    assert (A : 192 + c / 64 <? 128 = false) by divs.
    assert (B : (194 <=? 192 + c / 64) && (192 + c / 64 <=? 223) = true) by divs.
    assert (C : (128 <=? 128 + c mod 64) && (128 + c mod 64 <=? 191) = true) by divs.
    now rewrite A, B, C. }
  destruct (N.ltb_spec c 65536) as [H3|H3].
  { cbn [app utf8_valid]. unfold in_range at 1 2, is_cont, in_range.
    assert (A : 224 + c / 4096 <? 128 = false) by divs.
    assert (B : (194 <=? 224 + c / 4096) && (224 + c / 4096 <=? 223) = false) by divs.
    assert (B' : (224 <=? 224 + c / 4096) && (224 + c / 4096 <=? 239) = true) by divs.
    assert (C : (128 <=? 128 + c mod 64) && (128 + c mod 64 <=? 191) = true) by divs.
    rewrite A, B, B', C. rewrite andb_true_r.
    assert (U : utf8_second3 (224 + c / 4096) (128 + (c / 64) mod 64) = true); [|now rewrite U].
    unfold utf8_second3, is_cont, in_range.
    destruct (N.eqb_spec (224 + c / 4096) 224); [divs|].
    destruct (N.eqb_spec (224 + c / 4096) 237); [destruct H; divs|]. divs. }
  { cbn [app utf8_valid]. unfold in_range, is_cont, in_range.
    assert (Hc : c < 1114112) by (destruct H; lia).
    assert (A : 240 + c / 262144 <? 128 = false) by divs.
    assert (B : (194 <=? 240 + c / 262144) && (240 + c / 262144 <=? 223) = false) by divs.
    assert (B' : (224 <=? 240 + c / 262144) && (240 + c / 262144 <=? 239) = false) by divs.
    assert (B2 : (240 <=? 240 + c / 262144) && (240 + c / 262144 <=? 244) = true) by divs.
    assert (C : (128 <=? 128 + c mod 64) && (128 + c mod 64 <=? 191) = true) by divs.
    assert (C' : (128 <=? 128 + (c / 64) mod 64) && (128 + (c / 64) mod 64 <=? 191) = true) by divs.
    rewrite A, B, B', B2, C, C'. rewrite !andb_true_r.
    assert (U : utf8_second4 (240 + c / 262144) (128 + (c / 4096) mod 64) = true); [|now rewrite U].
    unfold utf8_second4, is_cont, in_range.
    destruct (N.eqb_spec (240 + c / 262144) 240); [divs|].
    destruct (N.eqb_spec (240 + c / 262144) 244); divs. }
Qed.

Lemma utf8_valid_inv bs : bs <> [] -> utf8_valid bs = true ->
  exists c r, scalar c /\ bs = utf8_bytes c ++ r /\ utf8_valid r = true.
Proof.
  destruct bs as [|b0 r0]; [congruence|]. intros _ H. cbn [utf8_valid] in H.
  destruct (N.ltb_spec b0 128) as [H0|H0].
  { exists b0, r0. split; [left; lia|]. split; auto. unfold utf8_bytes.
    assert (X : b0 <? 128 = true) by lia. now rewrite X. }
  destruct r0 as [|b1 r1]; [discriminate|].
  destruct (in_range 194 223 b0) eqn:R2.
  { apply andb_prop in H. destruct H as [Hc H]. unfold in_range, is_cont, in_range in *.
    exists ((b0 - 192) * 64 + (b1 - 128)), r1. split; [left; lia|]. split; auto. unfold utf8_bytes.
    destruct (N.ltb_spec ((b0 - 192) * 64 + (b1 - 128)) 128); [lia|].
    destruct (N.ltb_spec ((b0 - 192) * 64 + (b1 - 128)) 2048); [|lia].
    cbn [app]. repeat f_equal; divs. }
  destruct r1 as [|b2 r2]; [discriminate|].
  destruct (in_range 224 239 b0) eqn:R3.
  { apply andb_prop in H. destruct H as [H Hv]. apply andb_prop in H. destruct H as [Hs Hc].
    unfold utf8_second3, in_range, is_cont, in_range in *.
    set (c := (b0 - 224) * 4096 + (b1 - 128) * 64 + (b2 - 128)).
    assert (F : 128 <= b1 /\ b1 <= 191 /\ 2048 <= c /\ c < 65536 /\ scalar c).
    { unfold c, scalar. destruct (N.eqb_spec b0 224); [lia|]. destruct (N.eqb_spec b0 237); lia. }
    destruct F as (F1 & F2 & F3 & F4 & F5).
    exists c, r2. split; auto. split; auto. unfold utf8_bytes.
    destruct (N.ltb_spec c 128); [lia|]. destruct (N.ltb_spec c 2048); [lia|].
    destruct (N.ltb_spec c 65536); [|lia].
    cbn [app]. unfold c. repeat f_equal; divs. }
  destruct r2 as [|b3 r3]; [discriminate|].
  repeat (apply andb_prop in H; destruct H as [H ?]).
  unfold utf8_second4, in_range, is_cont, in_range in *.
  set (c := (b0 - 240) * 262144 + (b1 - 128) * 4096 + (b2 - 128) * 64 + (b3 - 128)).
  assert (F : 128 <= b1 /\ b1 <= 191 /\ 65536 <= c /\ c < 1114112).
  { unfold c. destruct (N.eqb_spec b0 240); [lia|]. destruct (N.eqb_spec b0 244); lia. }
  destruct F as (F1 & F2 & F3 & F4).
  exists c, r3. split; [right; lia|]. split; auto. unfold utf8_bytes.
  destruct (N.ltb_spec c 128); [lia|]. destruct (N.ltb_spec c 2048); [lia|].
  destruct (N.ltb_spec c 65536); [lia|].
  cbn [app]. unfold c. repeat f_equal; divs.
Qed.

Lemma utf8_bytes_nonempty c : (1 <= length (utf8_bytes c))%nat.
Proof.
  unfold utf8_bytes. destruct (_ <? _); [simpl; lia|]. destruct (_ <? _); [simpl; lia|].
  destruct (_ <? _); simpl; lia.
Qed.

Lemma utf8_exact s : utf8_valid s = true <-> exists cs, Forall scalar cs /\ s = flat_map utf8_bytes cs.
Proof.
  split.
  - remember (length s) as n eqn:E. revert s E.
    induction n as [n IH] using (well_founded_induction lt_wf). intros s E H.
    destruct s as [|b s]; [exists []; auto|].
    destruct (utf8_valid_inv (b :: s)) as (c & r & Sc & Eq & V); [discriminate|auto|].
    destruct (IH (length r)) with (s := r) as (cs & F & ->); auto.
    { rewrite E, Eq, app_length. pose proof (utf8_bytes_nonempty c). lia. }
    exists (c :: cs). split; auto.
  - intros (cs & F & ->). induction F as [|c cs Sc F IH]; auto. cbn [flat_map].
    now rewrite utf8_valid_app.
Qed.

Lemma seq_canon {A} (e : encoder A) (d : decoder A) :
  (forall bs x r, bytes_ok bs -> d bs = Ok (x, r) -> exists a, e x = Some a /\ bs = a ++ r) ->
  forall n bs l r, bytes_ok bs -> dec_seq d n bs = Ok (l, r) ->
  length l = n /\ exists a, enc_seq e l = Some a /\ bs = a ++ r.
Proof.
  intros C. induction n as [|n IH]; intros bs l r Hb H; cbn [dec_seq] in H.
  - injection H as <- <-. split; auto. exists []. auto.
  - destruct (d bs) as [[x r1]| |] eqn:D; cbn [bind] in H; try discriminate.
    destruct (C _ _ _ Hb D) as (a & Ea & ->).
    destruct (dec_seq d n r1) as [[l' r']| |] eqn:S; cbn [bind] in H; try discriminate.
    injection H as <- <-. apply Forall_app in Hb. destruct Hb as [_ Hb].
    destruct (IH _ _ _ Hb S) as (L & a' & E' & ->).
    split; [simpl; congruence|]. exists (a ++ a'). cbn [enc_seq]. rewrite Ea. cbn [obind]. rewrite E'.
    cbn [obind]. now rewrite app_assoc.
Qed.

(** ** Repeated sections *)

Lemma get_insert s l k : get_section k (insert_section s l) =
  if kind_eqb k (section_kind_of s) then Some s else get_section k l.
Proof.
  unfold get_section. induction l as [|y l IH]; cbn [insert_section find]; auto.
  destruct (kind_eqb (section_kind_of s) (section_kind_of y)) eqn:E; cbn [find].
  - apply kind_eqb_spec in E. rewrite <- E. destruct (kind_eqb k (section_kind_of s)); auto.
  - rewrite IH. destruct (kind_eqb k (section_kind_of y)) eqn:Y; auto.
    apply kind_eqb_spec in Y. subst k. destruct (kind_eqb (section_kind_of y) (section_kind_of s)) eqn:Z; auto.
    apply kind_eqb_spec in Z. rewrite <- Z, kind_eqb_refl in E. discriminate.
Qed.

Lemma insert_nodup s l : NoDup (map section_kind_of l) -> NoDup (map section_kind_of (insert_section s l)).
Proof.
  assert (K : forall x, In x (map section_kind_of (insert_section s l)) -> x = section_kind_of s \/ In x (map section_kind_of l)).
  { induction l as [|y l IH]; intros x; cbn [insert_section map In].
    - intros [<-|[]]; auto.
    - destruct (kind_eqb _ _) eqn:E; cbn [map In].
      + apply kind_eqb_spec in E. intros [<-|X]; auto.
      + intros [<-|X]; auto. apply IH in X. tauto. }
  revert K. induction l as [|y l IH]; intros K H; cbn [insert_section map].
  - constructor; [auto|constructor].
  - inversion H as [|? ? N1 N2]; subst. destruct (kind_eqb _ _) eqn:E; cbn [map].
    + apply kind_eqb_spec in E. rewrite E. constructor; auto.
    + constructor.
      * intros X. assert (Z : forall x, In x (map section_kind_of (insert_section s l)) -> x = section_kind_of s \/ In x (map section_kind_of l)).
        { clear. induction l as [|y l IH]; intros x; cbn [insert_section map In].
          - intros [<-|[]]; auto.
          - destruct (kind_eqb _ _) eqn:E; cbn [map In].
            + apply kind_eqb_spec in E. intros [<-|X]; auto.
            + intros [<-|X]; auto. apply IH in X. tauto. }
        apply Z in X. destruct X as [X|X]; [|tauto].
        rewrite X, kind_eqb_refl in E. discriminate.
      * apply IH; auto. clear. induction l as [|y l IH]; intros x; cbn [insert_section map In].
        -- intros [<-|[]]; auto.
        -- destruct (kind_eqb _ _) eqn:E; cbn [map In].
           ++ apply kind_eqb_spec in E. intros [<-|X]; auto.
           ++ intros [<-|X]; auto. apply IH in X. tauto.
Qed.

Lemma dec_loop_repeats l bufs : forall bs acc rest,
  Forall2 (fun s kb => fst kb = section_kind_of s /\ enc_section s = Some (snd kb)) l bufs ->
  Forall (fun s => section_wf s /\ section_size s < 4294967295) l ->
  enc_seq enc_buf bufs = Some bs ->
  NoDup (map section_kind_of acc) ->
  exists out, dec_sections_loop (wants None) (length l) acc (bs ++ rest) = Ok (out, rest) /\
    NoDup (map section_kind_of out) /\
    forall k, get_section k out = match last_of_kind k l with Some s => Some s | None => get_section k acc end.
Proof.
  intros bs acc rest F. revert bs acc. induction F as [|s [k b] l bufs [Hk Hb] F IH]; intros bs acc Hw He ND.
  - cbn [enc_seq] in He. apply Some_inj in He. subst bs. exists acc. split; auto.
  - inversion Hw as [|? ? [Hs Hz] Hl]; subst. cbn [fst snd] in Hk, Hb. subst k.
    destruct (section_rt s Hs Hz) as (b' & E' & Sz & D).
    rewrite Hb in E'. apply Some_inj in E'. subst b'.
    apply enc_seq_cons_inv in He as (p & bs' & Ep & Eb & ->).
    apply enc_buf_inv in Ep as [Hlen ->].
    cbn [length]. rewrite <- !(app_assoc (be_bytes 2 _ ++ be_bytes 4 _)).
    rewrite (dec_loop_step _ _ _ _ (section_kind_of s) (nlen b) (b ++ bs' ++ rest)).
    2:{ rewrite <- (app_assoc b). apply dec_preview_app. red. lia. }
    cbn [wants]. rewrite D. cbn [bind].
    destruct (IH bs' (insert_section s acc) Hl Eb (insert_nodup _ _ ND)) as (out & O1 & O2 & O3).
    exists out. split; [auto|]. split; [auto|]. intros k. rewrite O3. cbn [last_of_kind].
    destruct (last_of_kind k l); auto. rewrite get_insert. destruct (kind_eqb k (section_kind_of s)); auto.
Qed.
