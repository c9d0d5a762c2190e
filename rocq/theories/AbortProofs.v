(** What decoders read and when they abort, composed from their parts. *)
From Coq Require Import List NArith ZArith Lia Bool.
From Coq Require Import ZifyBool ZifyNat ZifyN.
From Verif Require Import Base CodecModel CodecSpec CodecProofs LayoutModel LayoutSpec LayoutProofs
  SectionModel SectionProofs AbortSpec.
Import ListNotations.
Open Scope N_scope.

Record describes {A} (d : decoder A) (G : bytes -> A -> Prop) (B : bytes -> Prop) : Prop := {
  d_ok : forall bs x r, bytes_ok bs -> d bs = Ok (x, r) -> exists b, bs = b ++ r /\ G b x;
  d_good : forall b x r, bytes_ok b -> G b x -> d (b ++ r) = Ok (x, r);
  d_bad : forall bs, bytes_ok bs -> (d bs = Panic <-> B bs) }.
Arguments d_ok {A d G B}. Arguments d_good {A d G B}. Arguments d_bad {A d G B}.

Definition nobad (_ : bytes) : Prop := False.

Lemma describes_bind {A B} (d : decoder A) (k : A -> decoder B) G1 B1 G2 B2 :
  describes d G1 B1 -> (forall a, describes (k a) (G2 a) (B2 a)) ->
  describes (fun bs => let* (a, r) := d bs in k a r)
    (fun b y => exists b1 a b2, b = b1 ++ b2 /\ G1 b1 a /\ G2 a b2 y)
    (fun bs => B1 bs \/ exists b1 a r, bs = b1 ++ r /\ G1 b1 a /\ B2 a r).
Proof.
  intros H1 H2. split.
  - intros bs x r Hb E. destruct (d bs) as [[a r1]| |] eqn:E1; try discriminate. cbn [bind] in E.
    destruct (d_ok H1 _ _ _ Hb E1) as (b1 & -> & g1). apply bytes_ok_app in Hb as [_ Hb].
    destruct (d_ok (H2 a) _ _ _ Hb E) as (b2 & -> & g2). exists (b1 ++ b2). rewrite app_assoc. eauto 7.
  - intros b y r Hb (b1 & a & b2 & -> & g1 & g2). apply bytes_ok_app in Hb as [Hb1 Hb2].
    rewrite <- app_assoc. rewrite (d_good H1 _ _ _ Hb1 g1). cbn [bind]. now apply (d_good (H2 a)).
  - intros bs Hb. split.
    + destruct (d bs) as [[a r1]| |] eqn:E1; cbn [bind]; intros E; try discriminate.
      * right. destruct (d_ok H1 _ _ _ Hb E1) as (b1 & -> & g1). apply bytes_ok_app in Hb as [_ Hb].
        exists b1, a, r1. split; [auto|]. split; [auto|]. now apply (d_bad (H2 a)).
      * left. now apply (d_bad H1).
    + intros [E|(b1 & a & r & -> & g1 & E)].
      * apply (d_bad H1) in E; [|auto]. now rewrite E.
      * apply bytes_ok_app in Hb as [Hb1 Hb]. rewrite (d_good H1 _ _ _ Hb1 g1). cbn [bind]. now apply (d_bad (H2 a)).
Qed.

Lemma describes_ext {A} (d : decoder A) G B G' B' : describes d G B ->
  (forall b x, bytes_ok b -> (G b x <-> G' b x)) -> (forall bs, bytes_ok bs -> (B bs <-> B' bs)) -> describes d G' B'.
Proof.
  intros H HG HB. split.
  - intros bs x r Hb E. destruct (d_ok H _ _ _ Hb E) as (b & -> & g). apply bytes_ok_app in Hb as [Hb _].
    exists b. split; [auto|]. now apply HG.
  - intros b x r Hb g. apply (d_good H); [auto|]. now apply HG.
  - intros bs Hb. rewrite (d_bad H bs Hb). now apply HB.
Qed.

Lemma describes_ret {A} (x : A) : describes (fun bs => Ok (x, bs)) (fun b y => b = [] /\ y = x) nobad.
Proof.
  split.
  - intros bs y r _ [= <- <-]. exists []. auto.
  - intros b y r _ [-> ->]. reflexivity.
  - intros bs _. split; [discriminate|intros []].
Qed.
Lemma describes_err {A} e : describes (fun _ => @Err parse_error (A * bytes) e) (fun _ _ => False) nobad.
Proof. split; [discriminate|intros ? ? ? _ []|]. intros bs _. split; [discriminate|intros []]. Qed.
Lemma describes_panic {A} : describes (fun _ => @Panic parse_error (A * bytes)) (fun _ _ => False) (fun _ => True).
Proof. split; [discriminate|intros ? ? ? _ []|]. intros bs _. split; auto. Qed.

Lemma describes_uint w : describes (dec_uint w) (fun b n => n < 256 ^ N.of_nat w /\ b = be_bytes w n) nobad.
Proof.
  split.
  - intros bs x r Hb E. apply dec_uint_inv in E as (? & ? & _); eauto.
  - intros b x r _ [H ->]. now apply dec_uint_app.
  - intros bs _. split; [intros E; now apply dec_uint_nopanic in E|intros []].
Qed.
Lemma describes_bytes n : describes (read_bytes n) (fun b x => length b = n /\ x = b) nobad.
Proof.
  split.
  - intros bs x r _ E. apply read_bytes_inv in E as [? ->]. eauto.
  - intros b x r _ [H ->]. now apply read_bytes_app_n.
  - intros bs _. split; [|intros []]. destruct (read_bytes_cases n bs) as [(l & r & -> & _)| ->]; discriminate.
Qed.
Lemma describes_byte : describes read_byte (fun b x => b = [x]) nobad.
Proof.
  split.
  - intros [|c bs] x r _ E; [discriminate|]. injection E as <- <-. now exists [c].
  - intros b x r _ ->. reflexivity.
  - intros [|c bs] _; (split; [discriminate|intros []]).
Qed.
Lemma describes_string : describes dec_string (fun b s => string_wf 255 s /\ b = nlen s :: s) nobad.
Proof.
  split.
  - intros bs x r Hb E. apply dec_string_inv in E as (? & ? & _); eauto.
  - intros b x r _ [H ->]. now apply dec_string_app.
  - intros bs _. split; [intros E; now apply dec_string_nopanic in E|intros []].
Qed.
Lemma describes_data w : describes (dec_data w)
  (fun b d => nlen d < 256 ^ N.of_nat w /\ b = be_bytes w (nlen d) ++ d) nobad.
Proof.
  split.
  - intros bs x r Hb E. apply dec_data_inv in E as (? & ? & _); eauto.
  - intros b x r _ [H ->]. rewrite <- app_assoc. now apply dec_data_app.
  - intros bs _. split; [intros E; now apply dec_data_nopanic in E|intros []].
Qed.

Lemma describes_seq {A} (d : decoder A) G B n : describes d G B ->
  describes (dec_seq d n)
    (fun b l => exists ps, length ps = n /\ Forall2 G ps l /\ b = concat ps)
    (fun bs => exists ps l bad, (length ps < n)%nat /\ Forall2 G ps l /\ B bad /\ bs = concat ps ++ bad).
Proof.
  intros H. induction n as [|n IH]; cbn [dec_seq].
  - eapply describes_ext; [apply describes_ret| |].
    + intros b x _. split.
      * intros [-> ->]. exists []. auto.
      * intros (ps & Hl & HF & ->). destruct ps; [|discriminate]. inversion HF. auto.
    + intros bs _. split; [intros []|]. intros (ps & l & bad & Hl & _). lia.
  - eapply describes_ext.
    + apply describes_bind; [exact H|]. intros a. apply describes_bind; [exact IH|]. intros l. apply describes_ret.
    + intros b x _. split.
      * intros (b1 & a & b2 & -> & g & b3 & l & b4 & -> & (ps & Hl & HF & ->) & -> & ->).
        exists (b1 :: ps). split; [cbn [length]; lia|]. split; [auto|]. cbn [concat]. now rewrite app_nil_r.
      * intros (ps & Hl & HF & ->). destruct HF as [|p y ps l g HF]; [discriminate|].
        exists p, y, (concat ps). split; [reflexivity|]. split; [auto|]. exists (concat ps), l, [].
        split; [now rewrite app_nil_r|]. split; [|auto]. exists ps. cbn [length] in Hl. split; [lia|]. auto.
    + intros bs _. split.
      * intros [E|(b1 & a & r & -> & g & [(ps & l & bad & Hl & HF & E & ->)|(? & ? & ? & _ & _ & [])])].
        -- exists [], [], bs. split; [cbn; lia|]. auto.
        -- exists (b1 :: ps), (a :: l), bad. split; [cbn [length]; lia|]. split; [auto|]. split; [auto|].
           cbn [concat]. now rewrite app_assoc.
      * intros (ps & l & bad & Hl & HF & E & ->). destruct HF as [|p y ps l g HF]; [now left|]. right.
        exists p, y, (concat ps ++ bad). cbn [concat]. rewrite app_assoc. split; [auto|]. split; [auto|]. left.
        exists ps, l, bad. cbn [length] in Hl. split; [lia|]. auto.
Qed.

(** ** Layouts *)
Lemma describes_if {A} (c : bool) (d e : decoder A) G1 B1 G2 B2 : describes d G1 B1 -> describes e G2 B2 ->
  describes (fun r => if c then d r else e r)
    (fun b x => if c then G1 b x else G2 b x) (fun bs => if c then B1 bs else B2 bs).
Proof. destruct c; auto. Qed.

Lemma describes_layout_kind :
  describes dec_layout_kind (fun b _ => b = [0; 1])
    (fun bs => exists k rest, k < 65536 /\ k <> 1 /\ bs = be_bytes 2 k ++ rest).
Proof.
  eapply describes_ext.
  - apply describes_bind with (d := dec_u16) (k := fun n r => if n =? 1 then Ok (tt, r) else Panic); [apply (describes_uint 2)|].
    intros n. apply (describes_if (n =? 1) (fun r => Ok (tt, r)) (fun _ => Panic)); [apply describes_ret|apply describes_panic].
  - intros b []. split.
    + intros (b1 & n & b2 & -> & [_ ->] & E). destruct (N.eqb_spec n 1) as [->|]; [|contradiction]. now destruct E as [-> _].
    + intros ->. exists [0; 1], 1, []. split; [auto|]. split; [split; [reflexivity|reflexivity]|]. now cbn.
  - intros bs _. split.
    + intros [[]|(b1 & n & r & -> & [Hn ->] & E)]. destruct (N.eqb_spec n 1) as [->|Hne]; [destruct E|]. eauto.
    + intros (k & rest & Hk & Hne & ->). right. exists (be_bytes 2 k), k, rest. split; [auto|]. split; [auto|].
      destruct (N.eqb_spec k 1); [contradiction|exact I].
Qed.

Lemma Forall2_sizes ps l : Forall2 (fun b n => n < 256 ^ N.of_nat 2 /\ b = be_bytes 2 n) ps l <->
  Forall (fun s => s < 65536) l /\ ps = map (be_bytes 2) l.
Proof.
  split.
  - induction 1 as [|b n ps l [Hn ->] _ [IH ->]]; [auto|]. split; [constructor; auto|reflexivity].
  - intros [H ->]. induction H as [|n l Hn H IH]; [constructor|]. constructor; auto.
Qed.

Lemma total_small l : Forall (fun s => s < 65536) l -> total l <= 65535 * nlen l.
Proof. induction 1 as [|n l Hn H IH]; [reflexivity|]. rewrite total_cons, nlen_cons. lia. Qed.

Lemma describes_sizes n :
  describes (fun r => if 0 <? n then let* (first, r) := dec_u32 r in
        let* (sizes, r) := dec_seq dec_u16 (N.to_nat n) r in Ok ((first, sizes), r) else Ok ((0, []), r))
    (fun b fs => (n = 0 /\ b = [] /\ fs = (0, []))
      \/ (0 < n /\ fst fs < 4294967296 /\ nlen (snd fs) = n /\ Forall (fun s => s < 65536) (snd fs)
          /\ b = be_bytes 4 (fst fs) ++ concat (map (be_bytes 2) (snd fs))))
    nobad.
Proof.
  eapply describes_ext.
  - apply (describes_if (0 <? n) (fun r => let* (first, r) := dec_u32 r in
        let* (sizes, r) := dec_seq dec_u16 (N.to_nat n) r in Ok ((first, sizes), r)) (fun r => Ok ((0, []), r)));
      [|apply describes_ret].
    apply describes_bind with (d := dec_u32) (k := fun first r => let* (sizes, r) := dec_seq dec_u16 (N.to_nat n) r in Ok ((first, sizes), r));
      [apply (describes_uint 4)|]. intros first.
    apply describes_bind with (d := dec_seq dec_u16 (N.to_nat n)) (k := fun sizes r => Ok ((first, sizes), r));
      [apply (describes_seq dec_u16), (describes_uint 2)|]. intros sizes. apply describes_ret.
  - intros b [first sizes] _. cbn [fst snd]. destruct (N.ltb_spec 0 n) as [Hn|Hn].
    + split.
      * intros (b1 & f & b2 & -> & [Hf ->] & b3 & l & b4 & -> & (ps & Hl & HF & ->) & -> & [= -> ->]).
        apply Forall2_sizes in HF as [HF ->]. right. rewrite map_length in Hl. rewrite app_nil_r.
        split; [auto|]. split; [exact Hf|]. split; [unfold nlen; lia|]. auto.
      * intros [(-> & _)|(_ & Hf & Hl & HF & ->)]; [lia|].
        exists (be_bytes 4 first), first, (concat (map (be_bytes 2) sizes)).
        split; [auto|]. split; [split; [exact Hf|reflexivity]|]. exists (concat (map (be_bytes 2) sizes)), sizes, [].
        split; [now rewrite app_nil_r|]. split; [|auto]. exists (map (be_bytes 2) sizes). rewrite map_length.
        split; [unfold nlen in Hl; lia|]. split; [|auto]. now apply Forall2_sizes.
    + split; [intros [-> ->]; left; split; [lia|auto]|]. intros [(_ & -> & ->)|(Hn' & _)]; [auto|lia].
  - intros bs _. destruct (0 <? n); [|reflexivity]. unfold nobad. split; [|intros []].
    intros [[]|(? & ? & ? & _ & _ & [(? & ? & ? & _ & _ & [] & _)|(? & ? & ? & _ & _ & [])])].
Qed.

Lemma describes_tail first sizes :
  describes (fun r => match from_byte_sizes first sizes with Some l => Ok (l, r) | None => Panic end)
    (fun b l => b = [] /\ from_byte_sizes first sizes = Some l)
    (fun _ => from_byte_sizes first sizes = None).
Proof.
  destruct (from_byte_sizes first sizes) as [l|].
  - eapply describes_ext; [apply describes_ret| |].
    + intros b x _. split; intros [-> E]; [split; congruence|split; [auto|congruence]].
    + intros bs _. split; [intros []|discriminate].
  - eapply describes_ext; [apply describes_panic| |].
    + intros b x _. split; [intros []|intros [_ E]; discriminate].
    + intros bs _. split; auto.
Qed.

Lemma sizes_fit first sizes : sizes <> [] -> nlen sizes < 65536 -> first < 4294967296 -> Forall (fun s => s < 65536) sizes ->
  ((exists l, from_byte_sizes first sizes = Some l) <-> first + nlen sizes <= 4294967296).
Proof.
  intros Hne Hl Hf HF. rewrite from_byte_sizes_defined. pose proof (total_small _ HF) as HT. unfold u32_max. split.
  - intros [->|[H _]]; [contradiction|lia].
  - intros H. right. split; lia.
Qed.

Lemma describes_layout : exists G, describes dec_layout G bad_layout /\ forall b, (exists l, G b l) <-> good_layout b.
Proof.
  eexists. split.
  - eapply describes_ext; [|intros; reflexivity|].
    + apply describes_bind with (d := dec_layout_kind) (k := fun _ r => let* (n, r) := dec_u16 r in _);
        [apply describes_layout_kind|]. intros u.
      apply describes_bind with (d := dec_u16) (k := fun n r => let* (fs, r) := _ in _); [apply (describes_uint 2)|].
      intros n.
      apply (describes_bind (fun r => if 0 <? n then let* (first, r) := dec_u32 r in
        let* (sizes, r) := dec_seq dec_u16 (N.to_nat n) r in Ok ((first, sizes), r) else Ok ((0, []), r))
        (fun fs r => match from_byte_sizes (fst fs) (snd fs) with Some l => Ok (l, r) | None => Panic end));
        [apply describes_sizes|].
      intros fs. apply (describes_tail (fst fs) (snd fs)).
    + intros bs _. unfold bad_layout. apply or_iff_compat_l. split.
      * intros (b1 & [] & r & -> & -> & [[]|(b2 & n & r2 & -> & [Hn ->] & [[]|(b3 & [first sizes] & r3 & -> & Hs & E)])]).
        cbn [fst snd] in *. destruct Hs as [(-> & -> & [= -> ->])|(Hn0 & Hf & <- & HF & ->)]; [discriminate|].
        assert (Hne : sizes <> []) by (intros ->; discriminate).
        exists first, sizes. eexists. exists r3. split; [|split].
        -- split; [exact Hne|]. split; [exact Hn|]. split; [exact Hf|]. split; [exact HF|reflexivity].
        -- destruct (N.le_gt_cases (first + nlen sizes) 4294967296) as [H|H]; [|lia].
           apply sizes_fit in H as [l H]; auto. congruence.
        -- now rewrite <- !app_assoc.
      * intros (first & sizes & b & rest & (Hne & Hl & Hf & HF & ->) & Hbig & ->).
        exists [0; 1], tt. eexists. split; [now rewrite <- !app_assoc|]. split; [reflexivity|]. right.
        exists (be_bytes 2 (nlen sizes)), (nlen sizes). eexists. split; [reflexivity|]. split; [split; [exact Hl|reflexivity]|].
        right. exists (be_bytes 4 first ++ concat (map (be_bytes 2) sizes)), (first, sizes), rest.
        split; [reflexivity|]. cbn [fst snd]. split.
        -- right. split; [|auto]. destruct sizes; [contradiction|]. rewrite nlen_cons. lia.
        -- destruct (from_byte_sizes first sizes) as [l|] eqn:E; [|auto]. exfalso.
           assert (first + nlen sizes <= 4294967296) by (apply sizes_fit; eauto). lia.
  - intros b. split.
    + intros (l & b1 & [] & b2 & -> & -> & b3 & n & b4 & -> & [Hn ->] & b5 & [first sizes] & b6 & -> & Hs & -> & E).
      cbn [fst snd] in *. rewrite app_nil_r. destruct Hs as [(-> & -> & [= -> ->])|(Hn0 & Hf & <- & HF & ->)]; [now left|].
      right. assert (Hne : sizes <> []) by (intros ->; discriminate). exists first, sizes.
      split; [repeat (split; [assumption|]); reflexivity|]. apply sizes_fit; eauto.
    + intros [->|(first & sizes & (Hne & Hl & Hf & HF & ->) & Hfit)].
      * eexists. exists [0; 1], tt, [0; 0]. split; [reflexivity|]. split; [reflexivity|].
        exists [0; 0], 0, []. split; [reflexivity|]. split; [split; reflexivity|].
        exists [], (0, []), []. split; [reflexivity|]. split; [left; auto|]. split; [reflexivity|]. reflexivity.
      * apply sizes_fit in Hfit as [l El]; auto. exists l. exists [0; 1], tt. eexists. split; [reflexivity|]. split; [reflexivity|].
        exists (be_bytes 2 (nlen sizes)), (nlen sizes). eexists. split; [reflexivity|]. split; [split; [exact Hl|reflexivity]|].
        eexists. exists (first, sizes), []. cbn [fst snd]. rewrite app_nil_r. split; [reflexivity|]. split; [|auto].
        right. split; [|auto]. destruct sizes; [contradiction|]. rewrite nlen_cons. lia.
Qed.

(** ** Section bodies *)
Lemma Forall2_ex {A} (G : bytes -> A -> Prop) P ps : (forall b, (exists x, G b x) <-> P b) ->
  ((exists l, Forall2 G ps l) <-> Forall P ps).
Proof.
  intros H. split.
  - intros [l HF]. induction HF as [|b x ps l g HF IH]; [constructor|]. constructor; [apply H; eauto|auto].
  - induction 1 as [|b ps Hb _ [l IH]]; [exists []; constructor|]. apply H in Hb as [x Hx]. exists (x :: l). auto.
Qed.

Lemma describes_map {A B} (d : decoder A) (f : A -> B) G Bad : describes d G Bad ->
  describes (fun bs => let* (x, r) := d bs in Ok (f x, r)) (fun b y => exists x, G b x /\ y = f x) Bad.
Proof.
  intros H. eapply describes_ext.
  - apply (describes_bind d (fun x r => Ok (f x, r))); [exact H|]. intros x. apply describes_ret.
  - intros b y _. split.
    + intros (b1 & x & b2 & -> & g & -> & ->). rewrite app_nil_r. eauto.
    + intros (x & g & ->). exists b, x, []. rewrite app_nil_r. auto.
  - intros bs _. split; [intros [E|(? & ? & ? & _ & _ & [])]; auto|auto].
Qed.

Lemma describes_code_kind : describes dec_code_kind (fun b _ => b = [0; 1]) nobad.
Proof.
  eapply describes_ext.
  - apply describes_bind with (d := dec_u16) (k := fun n r => if n =? 1 then Ok (tt, r) else Err InvalidSection); [apply (describes_uint 2)|].
    intros n. apply (describes_if (n =? 1) (fun r => Ok (tt, r)) (fun _ => Err InvalidSection)); [apply describes_ret|apply describes_err].
  - intros b []. split.
    + intros (b1 & n & b2 & -> & [_ ->] & E). destruct (N.eqb_spec n 1) as [->|]; [|contradiction]. now destruct E as [-> _].
    + intros ->. exists [0; 1], 1, []. split; [auto|]. split; [split; [reflexivity|reflexivity]|]. now cbn.
  - intros bs _. split; [|intros []]. intros [[]|(b1 & n & r & -> & [Hn ->] & E)]. destruct (n =? 1); exact E.
Qed.

Lemma describes_gas_mode : describes dec_gas_mode (fun b m => b = be_bytes 8 1 /\ m = Fixed)
  (fun bs => exists mode rest, mode < 2 ^ 64 /\ mode <> 1 /\ bs = be_bytes 8 mode ++ rest).
Proof.
  eapply describes_ext.
  - apply describes_bind with (d := dec_u64) (k := fun n r => if n =? 1 then Ok (Fixed, r) else Panic); [apply (describes_uint 8)|].
    intros n. apply (describes_if (n =? 1) (fun r => Ok (Fixed, r)) (fun _ => Panic)); [apply describes_ret|apply describes_panic].
  - intros b m _. split.
    + intros (b1 & n & b2 & -> & [_ ->] & E). destruct (N.eqb_spec n 1) as [->|]; [|contradiction]. destruct E as [-> ->].
      now rewrite app_nil_r.
    + intros [-> ->]. exists (be_bytes 8 1), 1, []. split; [now rewrite app_nil_r|]. split; [split; reflexivity|]. now cbn.
  - intros bs _. split.
    + intros [[]|(b1 & n & r & -> & [Hn ->] & E)]. destruct (N.eqb_spec n 1) as [->|Hne]; [destruct E|]. eauto.
    + intros (k & rest & Hk & Hne & ->). right. exists (be_bytes 8 k), k, rest. split; [auto|]. split; [auto|].
      destruct (N.eqb_spec k 1); [contradiction|exact I].
Qed.

Lemma describes_code : exists G, describes dec_code G (bad_body KCode)
  /\ forall b, (exists c, G b c) <-> good_body KCode b.
Proof.
  eexists. split.
  - eapply describes_ext; [|intros; reflexivity|].
    + apply describes_bind with (d := dec_code_kind) (k := fun _ r => let* (f, r) := dec_u64 r in _);
        [apply describes_code_kind|]. intros u.
      apply describes_bind with (d := dec_u64) (k := fun f r => let* (m, r) := dec_gas_mode r in _);
        [apply (describes_uint 8)|]. intros f.
      apply describes_bind with (d := dec_gas_mode) (k := fun m r => let* (v, r) := dec_u32 r in _);
        [apply describes_gas_mode|]. intros m.
      apply describes_bind with (d := dec_u32) (k := fun v r => let* (c, r) := dec_data 4 r in _);
        [apply (describes_uint 4)|]. intros v.
      apply describes_bind with (d := dec_data 4) (k := fun c r => Ok (mkCode v c f m, r));
        [apply (describes_data 4)|]. intros c. apply describes_ret.
    + intros bs _. cbn [bad_body]. split.
      * intros [[]|(b1 & u & r & -> & -> & [[]|(b2 & f & r2 & -> & [Hf ->] & E)])].
        destruct E as [(mode & rest & Hm & Hne & ->)|(b3 & m & r3 & -> & _ & E)].
        -- exists f, mode, rest. split; [exact Hf|]. auto.
        -- destruct E as [[]|(? & ? & ? & _ & _ & [[]|(? & ? & ? & _ & _ & [])])].
      * intros (f & mode & rest & Hf & Hm & Hne & ->). right. exists [0; 1], tt. eexists. split; [reflexivity|].
        split; [reflexivity|]. right. exists (be_bytes 8 f), f. eexists. split; [reflexivity|].
        split; [split; [exact Hf|reflexivity]|]. left. eauto.
  - intros b. cbn [good_body]. split.
    + intros (x & b1 & u & b2 & -> & -> & b3 & f & b4 & -> & [Hf ->] & b5 & m & b6 & -> & [-> ->] & b7 & v & b8 & -> & [Hv ->]
        & b9 & c & b10 & -> & [Hc ->] & -> & ->).
      exists f, v, c. split; [exact Hf|]. split; [exact Hv|]. split; [exact Hc|]. now rewrite app_nil_r.
    + intros (f & v & c & Hf & Hv & Hc & ->). exists (mkCode v c f Fixed).
      exists [0; 1], tt. eexists. split; [reflexivity|]. split; [reflexivity|].
      exists (be_bytes 8 f), f. eexists. split; [reflexivity|]. split; [split; [exact Hf|reflexivity]|].
      exists (be_bytes 8 1), Fixed. eexists. split; [reflexivity|]. split; [split; reflexivity|].
      exists (be_bytes 4 v), v. eexists. split; [reflexivity|]. split; [split; [exact Hv|reflexivity]|].
      exists (be_bytes 4 (nlen c) ++ c), c, []. split; [now rewrite app_nil_r|]. split; [split; [exact Hc|reflexivity]|]. auto.
Qed.

Lemma describes_data_section : exists G, describes dec_data_section G (bad_body KData)
  /\ forall b, (exists c, G b c) <-> good_body KData b.
Proof.
  destruct describes_layout as (GL & HL & HG). eexists. split.
  - eapply describes_ext; [|intros; reflexivity|].
    + apply describes_bind with (d := dec_u16) (k := fun n => dec_seq dec_layout (N.to_nat n));
        [apply (describes_uint 2)|]. intros n. apply describes_seq. exact HL.
    + intros bs _. cbn [bad_body]. split.
      * intros [[]|(b1 & n & r & -> & [Hn ->] & ps & l & bad & Hl & HF & E & ->)].
        exists n, ps, bad. split; [exact Hn|]. split; [unfold nlen; lia|].
        split; [|auto]. apply (Forall2_ex GL); eauto.
      * intros (n & ps & bad & Hn & Hl & HF & E & ->). right. apply (Forall2_ex GL) in HF as [l HF]; [|exact HG].
        exists (be_bytes 2 n), n. eexists. split; [reflexivity|]. split; [split; [exact Hn|reflexivity]|].
        exists ps, l, bad. split; [unfold nlen in Hl; lia|]. auto.
  - intros b. cbn [good_body]. split.
    + intros (x & b1 & n & b2 & -> & [Hn ->] & ps & Hl & HF & ->). exists ps.
      assert (n = nlen ps) as -> by (unfold nlen; lia). split; [exact Hn|]. split; [|auto]. apply (Forall2_ex GL); eauto.
    + intros (ps & Hn & HF & ->). apply (Forall2_ex GL) in HF as [l HF]; [|exact HG]. exists l.
      exists (be_bytes 2 (nlen ps)), (nlen ps), (concat ps). split; [auto|]. split; [split; [exact Hn|reflexivity]|].
      exists ps. split; [unfold nlen; lia|]. auto.
Qed.

Lemma text_ex b : (exists s, string_wf 255 s /\ b = nlen s :: s) <-> text b.
Proof. reflexivity. Qed.

Lemma describes_ctors : exists G, describes dec_ctors G (bad_body KCtors)
  /\ forall b, bytes_ok b -> ((exists c, G b c) <-> good_body KCtors b).
Proof.
  eexists. split.
  - eapply describes_ext; [|intros; reflexivity|].
    + apply describes_bind with (d := read_byte) (k := fun n => dec_seq dec_string (N.to_nat n));
        [apply describes_byte|]. intros n. apply describes_seq. apply describes_string.
    + intros bs _. cbn [bad_body]. split; [|intros []].
      intros [[]|(? & ? & ? & _ & _ & ? & ? & ? & _ & _ & [] & _)].
  - intros b Hb. cbn [good_body]. split.
    + intros (x & b1 & n & b2 & -> & -> & ps & Hl & HF & ->). exists ps.
      assert (n = nlen ps) as -> by (unfold nlen; lia). apply bytes_ok_app in Hb as [Hb _]. apply bytes_ok_cons in Hb as [Hb _].
      split; [exact Hb|]. split; [|auto]. apply (Forall2_ex (fun b s => string_wf 255 s /\ b = nlen s :: s)); eauto. apply text_ex.
    + intros (ps & Hn & HF & ->). apply (Forall2_ex (fun b s => string_wf 255 s /\ b = nlen s :: s)) in HF as [l HF]; [|apply text_ex].
      exists l. exists [nlen ps], (nlen ps), (concat ps). split; [auto|]. split; [auto|]. exists ps. split; [unfold nlen; lia|]. auto.
Qed.

Lemma describes_header : exists G, describes dec_header_section G (bad_body KHeader)
  /\ forall b, (exists c, G b c) <-> good_body KHeader b.
Proof.
  eexists. split.
  - eapply describes_ext; [|intros; reflexivity|].
    + apply describes_bind with (d := dec_u32) (k := fun v r => let* (b, r) := dec_string r in _);
        [apply (describes_uint 4)|]. intros v.
      apply describes_bind with (d := dec_string) (k := fun n r => let* (c, r) := dec_string r in _);
        [apply describes_string|]. intros n.
      apply describes_bind with (d := dec_string) (k := fun d r => Ok (mkHeader v n d, r)); [apply describes_string|].
      intros d. apply describes_ret.
    + intros bs _. cbn [bad_body]. split; [|intros []].
      intros [[]|(? & ? & ? & _ & _ & [[]|(? & ? & ? & _ & _ & [[]|(? & ? & ? & _ & _ & [])])])].
  - intros b. cbn [good_body]. split.
    + intros (x & b1 & v & b2 & -> & [Hv ->] & b3 & n & b4 & -> & [Hn ->] & b5 & d & b6 & -> & [Hd ->] & -> & _).
      exists v, (nlen n :: n), (nlen d :: d). split; [exact Hv|]. split; [exists n; auto|]. split; [exists d; auto|]. now rewrite app_nil_r.
    + intros (v & n & d & Hv & (n0 & Hn & ->) & (d0 & Hd & ->) & ->). eexists. exists (be_bytes 4 v), v. eexists. split; [reflexivity|].
      split; [split; [exact Hv|reflexivity]|]. eexists. exists n0. eexists. split; [reflexivity|]. split; [split; [exact Hn|reflexivity]|].
      exists (nlen d0 :: d0), d0, []. split; [now rewrite app_nil_r|]. auto.
Qed.

Lemma describes_deploy : exists G, describes dec_deploy G (bad_body KDeploy)
  /\ forall b, bytes_ok b -> ((exists c, G b c) <-> good_body KDeploy b).
Proof.
  eexists. split.
  - eapply describes_ext; [|intros; reflexivity|].
    + apply describes_bind with (d := dec_array TXID_LEN) (k := fun a r => let* (b, r) := dec_u64 r in _);
        [apply (describes_bytes TXID_LEN)|]. intros a.
      apply describes_bind with (d := dec_u64) (k := fun b r => let* (c, r) := dec_array ADDRESS_LEN r in _);
        [apply (describes_uint 8)|]. intros l.
      apply describes_bind with (d := dec_array ADDRESS_LEN) (k := fun c r => let* (e, r) := dec_array ADDRESS_LEN r in _);
        [apply (describes_bytes ADDRESS_LEN)|]. intros c.
      apply describes_bind with (d := dec_array ADDRESS_LEN) (k := fun e r => Ok (mkDeploy a l c e, r));
        [apply (describes_bytes ADDRESS_LEN)|]. intros e. apply describes_ret.
    + intros bs _. cbn [bad_body]. split; [|intros []].
      intros [[]|(? & ? & ? & _ & _ & [[]|(? & ? & ? & _ & _ & [[]|(? & ? & ? & _ & _ & [[]|(? & ? & ? & _ & _ & [])])])])].
  - intros b Hb. cbn [good_body]. split.
    + intros (x & b1 & a & b2 & -> & [Ha ->] & b3 & l & b4 & -> & [Hl ->] & b5 & c & b6 & -> & [Hc ->] & b7 & e & b8 & -> & [He ->] & -> & _).
      unfold nlen. rewrite !app_length, be_bytes_length, Ha, Hc, He. reflexivity.
    + intros H. assert (HL : length b = 80%nat) by (unfold nlen in H; lia).
      assert (H1 : exists a b1, b = a ++ b1 /\ length a = 32%nat /\ length b1 = 48%nat).
      { exists (firstn 32 b), (skipn 32 b). rewrite firstn_skipn, firstn_length, skipn_length. rewrite HL. auto. }
      destruct H1 as (a & b1 & -> & La & L1). apply bytes_ok_app in Hb as [_ Hb].
      assert (H2 : exists n b2, b1 = be_bytes 8 n ++ b2 /\ n < 256 ^ N.of_nat 8 /\ length b2 = 40%nat).
      { destruct (dec_uint 8 b1) as [[n r]| |] eqn:E.
        - apply dec_uint_inv in E as (Hn & -> & _); [|auto]. exists n, r. split; [auto|]. split; [auto|].
          rewrite app_length, be_bytes_length in L1. lia.
        - unfold dec_uint in E. destruct (read_bytes_cases 8 b1) as [(q & r & Eq & _)|Eq]; rewrite Eq in E; [discriminate|].
          exfalso. rewrite <- (firstn_skipn 8 b1) in Eq. rewrite read_bytes_app_n in Eq; [discriminate|]. rewrite firstn_length. lia.
        - now apply dec_uint_nopanic in E. }
      destruct H2 as (n & b2 & -> & Hn & L2).
      assert (H3 : exists c e, b2 = c ++ e /\ length c = 20%nat /\ length e = 20%nat).
      { exists (firstn 20 b2), (skipn 20 b2). rewrite firstn_skipn, firstn_length, skipn_length. rewrite L2. auto. }
      destruct H3 as (c & e & -> & Lc & Le).
      eexists. exists a, a. eexists. split; [reflexivity|]. split; [auto|].
      exists (be_bytes 8 n), n. eexists. split; [reflexivity|]. split; [auto|].
      exists c, c. eexists. split; [reflexivity|]. split; [auto|].
      exists e, e, []. split; [now rewrite app_nil_r|]. auto.
Qed.

Lemma describes_section k : exists G, describes (dec_section k) G (bad_body k)
  /\ forall b, bytes_ok b -> ((exists s, G b s) <-> good_body k b).
Proof.
  assert (L : forall A (d : decoder A) (f : A -> section), (exists G, describes d G (bad_body k)
      /\ forall b, bytes_ok b -> ((exists c, G b c) <-> good_body k b)) ->
    exists G, describes (fun bs => let* (x, r) := d bs in Ok (f x, r)) G (bad_body k)
      /\ forall b, bytes_ok b -> ((exists s, G b s) <-> good_body k b)).
  { intros A d f (G & HG & HB). eexists. split; [apply describes_map, HG|]. intros b Hb. rewrite <- (HB b Hb).
    split; [intros (s & x & g & _); eauto|intros (c & g); eauto]. }
  destruct k; unfold dec_section.
  - apply L. destruct describes_code as (G & H & E). exists G. auto.
  - apply L. destruct describes_data_section as (G & H & E). exists G. auto.
  - apply L. exact describes_ctors.
  - eexists. split; [apply describes_panic|]. intros b _. cbn [good_body]. split; [intros (_ & [])|intros []].
  - eexists. split; [apply describes_panic|]. intros b _. cbn [good_body]. split; [intros (_ & [])|intros []].
  - apply L. destruct describes_header as (G & H & E). exists G. auto.
  - apply L. exact describes_deploy.
Qed.

(** ** Sequences of sections *)
Lemma kind_number_code k : kind_number k = section_kind_code k.
Proof. destruct k; reflexivity. Qed.

Lemma describes_kind : describes dec_section_kind (fun b k => b = be_bytes 2 (kind_number k)) nobad.
Proof.
  split.
  - intros bs k r Hb E. unfold dec_section_kind in E. destruct (dec_u16 bs) as [[n r1]| |] eqn:E1; try discriminate.
    apply dec_uint_inv in E1 as (_ & -> & _); [|auto]. cbn [bind] in E. exists (be_bytes 2 n).
    repeat match type of E with (if ?a =? ?b then _ else _) = _ => destruct (N.eqb_spec a b) as [->|]; [injection E as <- <-; auto|] end.
    discriminate.
  - intros b k r _ ->. rewrite kind_number_code. apply dec_kind_app.
  - intros bs _. split; [|intros []]. destruct (np_kind bs) as [[e ->]|(x & p & r & -> & _)]; discriminate.
Qed.

Lemma describes_preview : describes dec_preview
  (fun b p => snd p < 4294967296 /\ b = preview (fst p) (snd p)) nobad.
Proof.
  eapply describes_ext.
  - apply describes_bind with (d := dec_section_kind) (k := fun k r => let* (n, r) := dec_u32 r in Ok ((k, n), r));
      [apply describes_kind|]. intros k.
    apply describes_bind with (d := dec_u32) (k := fun n r => Ok ((k, n), r)); [apply (describes_uint 4)|].
    intros n. apply describes_ret.
  - intros b [k n] _. cbn [fst snd]. split.
    + intros (b1 & k1 & b2 & -> & -> & b3 & n1 & b4 & -> & [Hn ->] & -> & [= -> ->]). rewrite app_nil_r. split; [exact Hn|reflexivity].
    + intros [Hn ->]. exists (be_bytes 2 (kind_number k)), k, (be_bytes 4 n). split; [auto|]. split; [auto|].
      exists (be_bytes 4 n), n, []. rewrite app_nil_r. split; [auto|]. split; [split; [exact Hn|reflexivity]|]. auto.
  - intros bs _. split; [|intros []]. intros [[]|(? & ? & ? & _ & _ & [[]|(? & ? & ? & _ & _ & [])])].
Qed.

Lemma wants_asked i k : wants i k = true <-> asked i k.
Proof.
  destruct i as [l|]; cbn [wants asked]; [|tauto]. rewrite existsb_exists. split.
  - intros (x & Hx & E). apply kind_eqb_spec in E. now subst.
  - intros H. exists k. split; [auto|]. now apply kind_eqb_spec.
Qed.

Definition bad_after (i : option (list section_kind)) (n : nat) (bs : bytes) : Prop :=
  exists before k size body, (length before < n)%nat /\ Forall (passes i) before
    /\ size < 4294967296 /\ asked i k /\ bad_body k body /\ bs = concat before ++ preview k size ++ body.

Lemma loop_aborts i n : forall acc bs, bytes_ok bs ->
  (dec_sections_loop (wants i) n acc bs = Panic <-> bad_after i n bs).
Proof.
  induction n as [|n IH]; intros acc bs Hb; cbn [dec_sections_loop].
  - split; [discriminate|]. intros (before & ? & ? & ? & H & _). lia.
  - split.
    + intros E. destruct (dec_preview bs) as [[[k size] r]| |] eqn:EP; cbn [bind fst snd] in E; try discriminate.
      * destruct (d_ok describes_preview _ _ _ Hb EP) as (p & -> & Hs & ->). cbn [fst snd] in *.
        apply bytes_ok_app in Hb as [_ Hb].
        destruct (wants i k) eqn:W.
        -- apply wants_asked in W. destruct (describes_section k) as (G & HG & Hgood).
           destruct (dec_section k r) as [[s r2]| |] eqn:ES; cbn [bind] in E; try discriminate.
           ++ destruct (d_ok HG _ _ _ Hb ES) as (b & -> & g). apply bytes_ok_app in Hb as [Hb1 Hb2].
              apply IH in E as (before & k' & size' & body & Hl & HF & Hs' & Ha & HB & ->); [|auto].
              exists ((preview k size ++ b) :: before), k', size', body. split; [cbn [length]; lia|].
              split; [|cbn [concat]; rewrite <- !app_assoc; auto]. constructor; [|auto]. exists k, size, b. split; [auto|].
              split; [auto|]. left. split; [auto|]. apply Hgood; eauto.
           ++ exists [], k, size, r. split; [cbn; lia|]. split; [auto|]. split; [auto|]. split; [auto|]. split; [|auto].
              now apply (d_bad HG).
        -- assert (NW : ~ asked i k) by (intros H; apply wants_asked in H; congruence).
           destruct (read_bytes (N.to_nat size) r) as [[s r2]| |] eqn:ES; cbn [bind] in E; try discriminate.
           ++ apply read_bytes_inv in ES as [Hl ->]. apply bytes_ok_app in Hb as [Hb1 Hb2].
              apply IH in E as (before & k' & size' & body & Hl' & HF & Hs' & Ha & HB & ->); [|auto].
              exists ((preview k size ++ s) :: before), k', size', body. split; [cbn [length]; lia|].
              split; [|cbn [concat]; rewrite <- !app_assoc; auto]. constructor; [|auto]. exists k, size, s. split; [auto|].
              split; [auto|]. right. split; [auto|]. unfold nlen. lia.
           ++ destruct (read_bytes_cases (N.to_nat size) r) as [(? & ? & X & _)|X]; congruence.
      * apply (d_bad describes_preview) in EP; [destruct EP|auto].
    + intros (before & k' & size' & body & Hl & HF & Hs' & Ha & HB & ->).
      destruct HF as [|p before (k & size & b & Hs & -> & HP) HF].
      * cbn [concat app] in *. apply bytes_ok_app in Hb as [Hp Hb].
        rewrite (d_good describes_preview _ (k', size') _ Hp (conj Hs' eq_refl)). cbn [bind fst snd].
        apply wants_asked in Ha. rewrite Ha. destruct (describes_section k') as (G & HG & _).
        apply (d_bad HG) in HB; [|auto]. now rewrite HB.
      * cbn [concat] in *. rewrite <- !app_assoc in *. apply bytes_ok_app in Hb as [Hp Hb].
        rewrite (d_good describes_preview _ (k, size) _ Hp (conj Hs eq_refl)). cbn [bind fst snd].
        apply bytes_ok_app in Hb as [Hb1 Hb2]. cbn [length] in Hl.
        assert (HR : bad_after i n (concat before ++ preview k' size' ++ body)).
        { exists before, k', size', body. split; [lia|]. auto. }
        destruct HP as [[W g]|[NW Hn]].
        -- apply wants_asked in W. rewrite W. destruct (describes_section k) as (G & HG & Hgood).
           apply Hgood in g as [s g]; [|auto]. rewrite (d_good HG _ _ _ Hb1 g). cbn [bind]. now apply IH.
        -- destruct (wants i k) eqn:W; [apply wants_asked in W; contradiction|].
           rewrite read_bytes_app_n by (unfold nlen in Hn; lia). cbn [bind]. now apply IH.
Qed.

Lemma sections_abort i bs : bytes_ok bs -> (dec_sections i bs = Panic <-> bad_template i bs).
Proof.
  intros Hb. unfold dec_sections. split.
  - intros E. destruct (dec_u16 bs) as [[n r]| |] eqn:EU; cbn [bind] in E; try discriminate.
    + apply dec_uint_inv in EU as (Hn & -> & Hr); [|auto]. apply loop_aborts in E as (before & k & size & body & Hl & HF & Hs & Ha & HB & ->); [|auto].
      exists n, before, k, size, body. split; [exact Hn|]. split; [unfold nlen; lia|]. auto.
    + exfalso. eapply dec_uint_nopanic. exact EU.
  - intros (n & before & k & size & body & Hn & Hl & HF & Hs & Ha & HB & ->). apply bytes_ok_app in Hb as [_ Hb].
    unfold dec_u16. rewrite dec_uint_app by exact Hn. cbn [bind]. apply loop_aborts; [auto|].
    exists before, k, size, body. split; [unfold nlen in Hl; lia|]. auto.
Qed.

Lemma loop_reads i n : forall acc bs, bytes_ok bs ->
  ((exists l r, dec_sections_loop (wants i) n acc bs = Ok (l, r))
   <-> exists parts rest, length parts = n /\ Forall (passes i) parts /\ bs = concat parts ++ rest).
Proof.
  induction n as [|n IH]; intros acc bs Hb; cbn [dec_sections_loop].
  - split; [intros _; exists [], bs; auto|]. intros _. eauto.
  - split.
    + intros (l & r0 & E). destruct (dec_preview bs) as [[[k size] r]| |] eqn:EP; cbn [bind fst snd] in E; try discriminate.
      destruct (d_ok describes_preview _ _ _ Hb EP) as (p & -> & Hs & ->). cbn [fst snd] in *.
      apply bytes_ok_app in Hb as [_ Hb]. destruct (wants i k) eqn:W.
      * apply wants_asked in W. destruct (describes_section k) as (G & HG & Hgood).
        destruct (dec_section k r) as [[s r2]| |] eqn:ES; cbn [bind] in E; try discriminate.
        destruct (d_ok HG _ _ _ Hb ES) as (b & -> & g). apply bytes_ok_app in Hb as [Hb1 Hb2].
        destruct (proj1 (IH _ r2 Hb2) (ex_intro _ _ (ex_intro _ _ E))) as (parts & rest & Hl & HF & ->).
        exists ((preview k size ++ b) :: parts), rest. split; [cbn [length]; lia|].
        split; [|cbn [concat]; now rewrite <- !app_assoc]. constructor; [|auto]. exists k, size, b. split; [auto|].
        split; [auto|]. left. split; [auto|]. apply Hgood; eauto.
      * assert (NW : ~ asked i k) by (intros H; apply wants_asked in H; congruence).
        destruct (read_bytes (N.to_nat size) r) as [[s r2]| |] eqn:ES; cbn [bind] in E; try discriminate.
        apply read_bytes_inv in ES as [Hl ->]. apply bytes_ok_app in Hb as [Hb1 Hb2].
        destruct (proj1 (IH _ r2 Hb2) (ex_intro _ _ (ex_intro _ _ E))) as (parts & rest & Hl' & HF & ->).
        exists ((preview k size ++ s) :: parts), rest. split; [cbn [length]; lia|].
        split; [|cbn [concat]; now rewrite <- !app_assoc]. constructor; [|auto]. exists k, size, s. split; [auto|].
        split; [auto|]. right. split; [auto|]. unfold nlen. lia.
    + intros (parts & rest & Hl & HF & ->). destruct HF as [|p parts (k & size & b & Hs & -> & HP) HF]; [discriminate|].
      cbn [concat] in *. rewrite <- !app_assoc in *. apply bytes_ok_app in Hb as [Hp Hb].
      rewrite (d_good describes_preview _ (k, size) _ Hp (conj Hs eq_refl)). cbn [bind fst snd].
      apply bytes_ok_app in Hb as [Hb1 Hb2]. cbn [length] in Hl.
      assert (HR : exists parts' rest', length parts' = n /\ Forall (passes i) parts' /\ concat parts ++ rest = concat parts' ++ rest').
      { exists parts, rest. split; [lia|]. auto. }
      destruct HP as [[W g]|[NW Hn]].
      * apply wants_asked in W. rewrite W. destruct (describes_section k) as (G & HG & Hgood).
        apply Hgood in g as [s g]; [|auto]. rewrite (d_good HG _ _ _ Hb1 g). cbn [bind]. now apply IH.
      * destruct (wants i k) eqn:W; [apply wants_asked in W; contradiction|].
        rewrite read_bytes_app_n by (unfold nlen in Hn; lia). cbn [bind]. now apply IH.
Qed.

Lemma sections_read i bs : bytes_ok bs ->
  ((exists l r, dec_sections i bs = Ok (l, r))
   <-> exists parts rest, nlen parts < 65536 /\ Forall (passes i) parts /\ bs = be_bytes 2 (nlen parts) ++ concat parts ++ rest).
Proof.
  intros Hb. unfold dec_sections. split.
  - intros (l & r0 & E). destruct (dec_u16 bs) as [[n r]| |] eqn:EU; cbn [bind] in E; try discriminate.
    apply dec_uint_inv in EU as (Hn & -> & Hr); [|auto].
    destruct (proj1 (loop_reads i _ _ r Hr) (ex_intro _ _ (ex_intro _ _ E))) as (parts & rest & Hl & HF & ->).
    assert (n = nlen parts) as -> by (unfold nlen; lia). exists parts, rest. auto.
  - intros (parts & rest & Hn & HF & ->). apply bytes_ok_app in Hb as [_ Hb].
    unfold dec_u16. rewrite dec_uint_app by exact Hn. cbn [bind]. apply loop_reads; [auto|].
    exists parts, rest. split; [unfold nlen; lia|]. auto.
Qed.
