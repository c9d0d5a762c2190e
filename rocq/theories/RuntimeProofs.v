(** Proofs about the runtime. *)
From Coq Require Import List NArith ZArith Bool Lia.
From Coq Require Import ZifyBool ZifyNat ZifyN.
From Verif Require Import Base CodecModel CodecSpec CodecProofs ReceiptModel ReceiptProofs LayoutModel LayoutSpec.
From Verif Require Import SectionModel SectionSpec SectionProofs SectionCanon.
From Verif Require Import StorageModel StorageSpec StorageProofs GlobalModel GlobalSpec GlobalProofs.
From Verif Require Import RuntimeModel RuntimeSpec.
Import ListNotations.
Open Scope N_scope.

(* ------------------------------------------------------------------------------------ *)
(** * Current contents *)

(** States of the global state with no layer selected. *)
Definition live (e : env) (g : gstate) : Prop := gs_reachable e g /\ gs_layer_param g = None.

Lemma live_typed e g : iterates e -> collision_free e -> live e g -> typed e g.
Proof. intros HI HC [H _]. now apply reachable_typed. Qed.

Definition allowed (B V : bytes -> Prop) (t : tkey) : Prop :=
  match t with TMut x => B x | TSeg x _ => V x | _ => False end.

(** [g'] differs from [g] only in uncommitted changes of the balances of [B] and of the
    variables of [V]. *)
Definition moves (e : env) (B V : bytes -> Prop) (g g' : gstate) : Prop :=
  only e (allowed B V) g g'
  /\ forall x, array_wf 20 x -> fst (account_counter e x g') = fst (account_counter e x g).

Lemma moves_refl e B V g : moves e B V g g.
Proof. split; [apply only_refl|auto]. Qed.
Lemma moves_trans e B V g1 g2 g3 : moves e B V g1 g2 -> moves e B V g2 g3 -> moves e B V g1 g3.
Proof. intros [A1 A2] [B1 B2]. split; [eapply only_trans; eauto|]. intros. rewrite B2, A2; auto. Qed.
Lemma moves_weaken e (B V B' V' : bytes -> Prop) g g' : (forall x, B x -> B' x) -> (forall x, V x -> V' x) ->
  moves e B V g g' -> moves e B' V' g g'.
Proof.
  intros HB HV [A1 A2]. split; auto. eapply only_weaken; [|exact A1]. intros []; cbn; auto.
Qed.
Lemma moves_param e B V g g' : moves e B V g g' -> gs_layer_param g' = gs_layer_param g.
Proof. intros [H _]. apply H. Qed.

Lemma moves_unchanged e B V g g' : typed e g -> typed e g' -> moves e B V g g' ->
  unchanged_except e B V g g'.
Proof.
  intros HT HT' [HO HCn]. constructor.
  - intros x Hx Hn. eapply only_fields; eauto.
  - intros x Hx. split; [|split; auto].
    + unfold account_name. apply bind_read_same. apply decode_same; try apply HO.
      apply (on_cur _ _ _ _ HO (TImm x)); [now split|auto].
    + unfold account_template. apply bind_read_same. apply decode_same; try apply HO.
      apply (on_cur _ _ _ _ HO (TImm x)); [now split|auto].
  - intros a id Ha Hn. eapply only_var_vec; eauto.
  - intros t Ht. eapply only_sections; eauto.
Qed.

Lemma unchanged_refl e B V g : unchanged_except e B V g g.
Proof. constructor; auto. Qed.
Lemma unchanged_trans e B V g1 g2 g3 :
  unchanged_except e B V g1 g2 -> unchanged_except e B V g2 g3 -> unchanged_except e B V g1 g3.
Proof.
  intros [A1 A2 A3 A4] [B1 B2 B3 B4]. constructor; intros.
  - rewrite B1; auto.
  - destruct (A2 x H) as (? & ? & ?), (B2 x H) as (? & ? & ?). repeat split; congruence.
  - rewrite B3; auto.
  - rewrite B4; auto.
Qed.
Lemma unchanged_weaken e (B V B' V' : bytes -> Prop) g g' : (forall x, B x -> B' x) -> (forall x, V x -> V' x) ->
  unchanged_except e B V g g' -> unchanged_except e B' V' g g'.
Proof. intros HB HV [A1 A2 A3 A4]. constructor; auto. Qed.

(** Same current contents. *)
Definition same_now (e : env) (g g' : gstate) : Prop :=
  gs_layer_param g = None /\ gs_layer_param g' = None /\ forall k, cur e g' k = cur e g k.

Lemma decode_same_now {A} e (d : decoder A) k g g' : same_now e g g' ->
  fst (read_and_decode e d k g') = fst (read_and_decode e d k g).
Proof.
  intros (H1 & H2 & H3). unfold read_and_decode, gbind. rewrite H1, H2. cbn [option_map].
  rewrite !gs_get_now, H3. destruct (cur e g k) as [v|]; [|reflexivity]. destruct (d v) as [[? ?]| |]; reflexivity.
Qed.
Lemma sections_same_now e t g g' : same_now e g g' ->
  fst (template_sections e t g') = fst (template_sections e t g).
Proof.
  intros H. unfold template_sections, gbind.
  pose proof (decode_same_now e (dec_sections None) (key_core t) g g' H) as E1.
  pose proof (decode_same_now e (dec_sections None) (key_noncore t) g g' H) as E2.
  pose proof (reads_decode e (dec_sections None) (key_core t) g) as R1.
  pose proof (reads_decode e (dec_sections None) (key_core t) g') as R2.
  destruct (read_and_decode e (dec_sections None) (key_core t) g) as [[c|?|] x1],
      (read_and_decode e (dec_sections None) (key_core t) g') as [[c'|?|] x2];
      cbn [fst snd] in *; try congruence. subst x1 x2. injection E1 as ->.
  destruct (read_and_decode e (dec_sections None) (key_noncore t) g) as [[d|?|] x1],
      (read_and_decode e (dec_sections None) (key_noncore t) g') as [[d'|?|] x2];
      cbn [fst snd gret] in *; try congruence.
Qed.
Lemma same_now_unchanged e B V g g' : typed e g -> typed e g' -> same_now e g g' -> unchanged_except e B V g g'.
Proof.
  intros HT HT' H. constructor.
  - intros x _ _. unfold fields_of, account_name, account_template, account_balance, account_counter.
    rewrite !(bind_read_same _ _ g g') by (now apply decode_same_now). reflexivity.
  - intros x _. unfold account_name, account_template, account_counter.
    rewrite !(bind_read_same _ _ g g') by (now apply decode_same_now). auto.
  - intros a id Ha _. apply get_var_vec_same; auto. intros. unfold byte_at, seg. destruct H as (_ & _ & H). now rewrite H.
  - intros. now apply sections_same_now.
Qed.

(* ------------------------------------------------------------------------------------ *)
(** * The operations on balances *)

Lemma live_op e o g : live e g -> gop_wf o -> (forall l, o <> GLayerParam l) ->
  gs_layer_param (run_gop e o g) = gs_layer_param g -> live e (run_gop e o g).
Proof. intros [H1 H2] Ho _ HP. split; [now apply gr_op|congruence]. Qed.

Lemma set_balance_cases e a b g : iterates e -> collision_free e -> live e g -> array_wf 20 a -> b <= u64_max ->
  (exists g' old, fst (account_balance e a g) = Ok old /\ old <= u64_max
     /\ set_balance e a b g = (Ok tt, g') /\ live e g'
     /\ moves e (fun x => x = a) (fun _ => False) g g'
     /\ fst (account_balance e a g') = Ok b)
  \/ (fst (account_balance e a g) = Err GNotFound /\ set_balance e a b g = (Err GNotFound, g)).
Proof.
  intros HI HC HL Ha Hb. pose proof (live_typed e g HI HC HL) as HT. destruct HL as [HR HP].
  assert (Hb' : uint_wf 64 b) by (unfold uint_wf, u64_max in *; lia).
  destruct (replace_mut_effect e a (fun d => mkAccountMut b (am_counter d)) g HC HT Ha HP)
    as [(d & g' & Hr & Hd & HS & HT' & O & Hr')|(Hr & HS)].
  { intros d [? ?]. now split. }
  - left. exists g', (am_balance d). unfold account_balance at 1, gbind at 1. rewrite Hr.
    split; [reflexivity|]. split; [destruct Hd as [Hd _]; unfold uint_wf, u64_max in *; lia|].
    split; [exact HS|]. split; [|split].
    + split; [|rewrite (on_param _ _ _ _ O); auto].
      replace g' with (run_gop e (GSetBalance a b) g) by (cbn [run_gop]; unfold set_balance; now rewrite HS).
      apply gr_op; auto. now split.
    + split; [eapply only_weaken; [|exact O]; intros ? ->; reflexivity|].
      intros x Hx. destruct (bytes_dec x a) as [->|Hne].
      * unfold account_counter, gbind. now rewrite Hr, Hr'.
      * unfold account_counter. apply bind_read_same. apply decode_same; try apply O.
        apply (on_cur _ _ _ _ O (TMut x)); [now split|]. intros E. congruence.
    + unfold account_balance, gbind. now rewrite Hr'.
  - right. split; [unfold account_balance, gbind; now rewrite Hr|exact HS].
Qed.

(** What [transfer] and [transfer_between] do once the accounts are known to exist. *)
Definition move_coins (e : env) (src dst : bytes) (amount : N) : sm unit unit :=
  let^ src_bal := sunwrap (account_balance e src) in
  let^ dst_bal := sunwrap (account_balance e dst) in
  if src_bal <? amount then spanic
  else
    let^ _ := sunwrap (set_balance e src (src_bal - amount)) in
    if dst_bal + amount <=? u64_max then sunwrap (set_balance e dst (dst_bal + amount)) else spanic.

Lemma reads_balance e a : reads (account_balance e a).
Proof. unfold account_balance. apply reads_bind; [apply reads_decode|intros; apply reads_ret]. Qed.

Lemma unwrap_read {E A} (m : gm A) g : reads m ->
  (exists a, fst (m g) = Ok a /\ @sunwrap E A m g = (Ok a, g))
  \/ ((forall a, fst (m g) <> Ok a) /\ @sunwrap E A m g = (Panic, g)).
Proof.
  intros H. specialize (H g). unfold sunwrap. destruct (m g) as [[a|er|] g']; cbn in *; subst.
  - left. eauto.
  - right. split; [congruence|reflexivity].
  - right. split; [congruence|reflexivity].
Qed.


Lemma move_coins_cases e src dst n g r g' : iterates e -> collision_free e -> live e g ->
  array_wf 20 src -> array_wf 20 dst -> move_coins e src dst n g = (r, g') ->
  live e g' /\ moves e (pair_of src dst) nobody g g'
  /\ match r with
     | Ok _ => exists bs bd, fst (account_balance e src g) = Ok bs /\ fst (account_balance e dst g) = Ok bd
         /\ n <= bs /\ bd + n <= u64_max /\ fst (account_balance e dst g') = Ok (bd + n)
         /\ (src <> dst -> fst (account_balance e src g') = Ok (bs - n))
     | Err _ => False
     | Panic => (g' = g /\ forall bs bd, fst (account_balance e src g) = Ok bs ->
                    fst (account_balance e dst g) = Ok bd -> bs < n)
         \/ exists bs bd, fst (account_balance e src g) = Ok bs /\ fst (account_balance e dst g) = Ok bd
              /\ n <= bs /\ u64_max < bd + n /\ fst (account_balance e src g') = Ok (bs - n)
     end.
Proof.
  intros HI HC HL Hs Hd. unfold move_coins, sbind.
  destruct (@unwrap_read unit _ (account_balance e src) g (reads_balance e src)) as [(bs & E1 & ->)|[E1 ->]].
  2:{ intros [= <- <-]. split; auto. split; [apply moves_refl|]. left. split; auto. intros bs bd H. now apply E1 in H. }
  destruct (@unwrap_read unit _ (account_balance e dst) g (reads_balance e dst)) as [(bd & E2 & ->)|[E2 ->]].
  2:{ intros [= <- <-]. split; auto. split; [apply moves_refl|]. left. split; auto. intros bs' bd _ H. now apply E2 in H. }
  destruct (N.ltb_spec bs n) as [Hlt|Hge].
  { intros [= <- <-]. split; auto. split; [apply moves_refl|]. left. split; auto. intros bs' bd' H1 _. congruence. }
  assert (Hbs : bs <= u64_max).
  { destruct (set_balance_cases e src 0 g HI HC HL Hs ltac:(unfold u64_max; lia)) as [(g1 & old & Eo & Ho & _)|[Eo _]]; congruence. }
  unfold sunwrap at 1.
  destruct (set_balance_cases e src (bs - n) g HI HC HL Hs ltac:(lia)) as [(g1 & old & Eo & Ho & -> & HL1 & M1 & B1)|[Eo _]]; [|congruence].
  rewrite E1 in Eo. injection Eo as <-.
  assert (M1' : moves e (pair_of src dst) nobody g g1).
  { eapply moves_weaken; [| |exact M1]; [now left|auto]. }
  destruct (N.leb_spec (bd + n) u64_max) as [Hov|Hov].
  - unfold sunwrap.
    destruct (set_balance_cases e dst (bd + n) g1 HI HC HL1 Hd ltac:(lia)) as [(g2 & old & Eo' & Ho' & -> & HL2 & M2 & B2)|[Eo' E']].
    + intros [= <- <-]. split; auto. split.
      { eapply moves_trans; [exact M1'|]. eapply moves_weaken; [| |exact M2]; [now right|auto]. }
      exists bs, bd. do 5 (split; auto). intros Hne.
      rewrite <- B1. unfold account_balance. apply bind_read_same. destruct M2 as [O2 _].
      apply decode_same; try apply O2. apply (on_cur _ _ _ _ O2 (TMut src)); [now split|exact Hne].
    + exfalso. destruct (bytes_dec src dst) as [->|Hne]; [congruence|].
      assert (fst (account_balance e dst g1) = fst (account_balance e dst g)).
      { unfold account_balance. apply bind_read_same. destruct M1 as [O1 _]. apply decode_same; try apply O1.
        apply (on_cur _ _ _ _ O1 (TMut dst)); [now split|]. intros E. now apply Hne. }
      congruence.
  - intros [= <- <-]. split; auto. split; auto. right. exists bs, bd. auto 6.
Qed.

Lemma reads_get_account e a g : exists r, get_account e a g = (r, g).
Proof.
  unfold get_account.
  assert (H : reads (let! _ := account_load e a in let! b := account_balance e a in
                     let! c := account_counter e a in let! t := account_template e a in gret (b, c, t))).
  { apply reads_bind; [apply reads_load|intros]. apply reads_bind; [apply reads_balance|intros].
    apply reads_bind; [apply reads_bind; [apply reads_decode|intros; apply reads_ret]|intros].
    apply reads_bind; [apply reads_bind; [apply reads_decode|intros; apply reads_ret]|intros]. apply reads_ret. }
  specialize (H g). destruct (gbind _ _ g) as [[?|?|] ?]; cbn in *; subst; eauto.
Qed.

Lemma transfer_between_eq e src dst n g :
  transfer_between e src dst n g
  = match fst (account_load e src g), fst (account_load e dst g) with
    | Ok _, Ok _ => move_coins e src dst n g
    | _, _ => (Panic, g)
    end.
Proof.
  unfold transfer_between, sbind at 1.
  destruct (@unwrap_read unit _ (account_load e src) g (reads_load e src)) as [(a1 & E1 & ->)|[E1 ->]].
  2:{ destruct (fst (account_load e src g)) as [z| |]; try reflexivity. now destruct (E1 z). }
  rewrite E1. unfold sbind at 1.
  destruct (@unwrap_read unit _ (account_load e dst) g (reads_load e dst)) as [(a2 & E2 & ->)|[E2 ->]].
  2:{ destruct (fst (account_load e dst g)) as [z| |]; try reflexivity. now destruct (E2 z). }
  rewrite E2. reflexivity.
Qed.

Lemma load_get_account e a g x : typed e g -> array_wf 20 a -> gs_layer_param g = None ->
  fst (account_load e a g) = Ok x ->
  match fst (account_balance e a g) with
  | Ok _ => exists r, get_account e a g = (Ok (Some r), g)
  | _ => get_account e a g = (Ok None, g)
  end.
Proof.
  intros HT Ha HP H. pose proof (reads_load e a g) as RL.
  assert (El : account_load e a g = (Ok x, g)).
  { destruct (account_load e a g) as [o g0]. cbn [fst snd] in *. now subst. }
  assert (Ed : exists d', read_and_decode e dec_account_data (key_immutable a) g = (Ok d', g)).
  { clear RL. unfold account_load, gbind in El. pose proof (reads_decode e dec_account_data (key_immutable a) g) as R.
    destruct (read_and_decode e dec_account_data (key_immutable a) g) as [[d'|?|] g']; try discriminate.
    cbn in R. subst. eauto. }
  destruct Ed as (d' & Ed). unfold get_account, account_balance, account_counter, account_template, gbind.
  rewrite El. destruct (read_mut_cases e a g HT Ha HP) as [(d & bs & _ & _ & _ & Er)|[_ Er]]; rewrite Er; cbn [fst gret]; [|reflexivity].
  rewrite Er; cbn [fst gret]. rewrite Ed. cbn [gret]. eauto.
Qed.

Lemma transfer_eq e src dst n g : live e g -> iterates e -> collision_free e -> array_wf 20 src -> array_wf 20 dst ->
  transfer e src dst n g
  = match fst (account_load e src g), fst (account_load e dst g) with
    | Ok _, Ok _ => move_coins e src dst n g
    | _, _ => (Panic, g)
    end.
Proof.
  intros HL HI HC Hs Hd. pose proof (live_typed e g HI HC HL) as HT. destruct HL as [_ HP].
  unfold transfer, sbind at 1.
  destruct (@unwrap_read unit _ (account_load e src) g (reads_load e src)) as [(a1 & E1 & ->)|[E1 ->]].
  2:{ destruct (fst (account_load e src g)) as [z| |]; try reflexivity. now destruct (E1 z). }
  rewrite E1.
  destruct (fst (account_load e dst g)) as [a2|er|] eqn:E2.
  - pose proof (load_get_account e dst g a2 HT Hd HP E2) as HG. unfold sbind at 1, sunwrap at 1.
    destruct (fst (account_balance e dst g)) as [bd|er|] eqn:Eb.
    + destruct HG as (rr & ->). unfold sbind at 1.
      destruct (@unwrap_read unit _ (account_load e dst) g (reads_load e dst)) as [(a3 & E3 & ->)|[E3 ->]]; [reflexivity|].
      now destruct (E3 a2).
    + rewrite HG. unfold move_coins, sbind at 1.
      destruct (@unwrap_read unit _ (account_balance e src) g (reads_balance e src)) as [(bs & E3 & ->)|[E3 ->]]; [|reflexivity].
      unfold sbind at 1.
      destruct (@unwrap_read unit _ (account_balance e dst) g (reads_balance e dst)) as [(bs' & E4 & ->)|[E4 ->]]; [congruence|reflexivity].
    + rewrite HG. unfold move_coins, sbind at 1.
      destruct (@unwrap_read unit _ (account_balance e src) g (reads_balance e src)) as [(bs & E3 & ->)|[E3 ->]]; [|reflexivity].
      unfold sbind at 1.
      destruct (@unwrap_read unit _ (account_balance e dst) g (reads_balance e dst)) as [(bs' & E4 & ->)|[E4 ->]]; [congruence|reflexivity].
  - unfold sbind at 1, sunwrap at 1, get_account, gbind at 1. pose proof (reads_load e dst g) as RL.
    destruct (account_load e dst g) as [o g0]. cbn [fst snd] in *. subst. reflexivity.
  - unfold sbind at 1, sunwrap at 1, get_account, gbind at 1. pose proof (reads_load e dst g) as RL.
    destruct (account_load e dst g) as [o g0]. cbn [fst snd] in *. subst. reflexivity.
Qed.

(* ------------------------------------------------------------------------------------ *)
(** * Host calls *)

Lemma set_var_eff e a id v g : iterates e -> collision_free e -> live e g -> array_wf 20 (ac_addr a) -> bytes_ok v ->
  set_var_bytes e a id v g = (Panic, g)
  \/ exists g', set_var_bytes e a id v g = (Ok tt, g') /\ live e g'
       /\ moves e nobody (fun x => x = ac_addr a) g g'.
Proof.
  intros HI HC HL Ha Hv. pose proof (live_typed e g HI HC HL) as HT. destruct HL as [HR HP].
  destruct (set_var_cases e a id v g HC Ha HT Hv) as [H|(r & g' & _ & _ & HS & W)]; [auto|].
  right. exists g'. split; auto. pose proof (wrote_only _ _ _ _ _ W) as O. split.
  - split; [|rewrite (on_param _ _ _ _ O); auto].
    replace g' with (run_gop e (GSetVar a id v) g) by (cbn [run_gop]; now rewrite HS). apply gr_op; auto. now split.
  - split; [eapply only_weaken; [|exact O]; intros ? [? ->]; reflexivity|].
    intros x Hx. unfold account_counter. apply bind_read_same. apply decode_same; try apply O.
    apply (on_cur _ _ _ _ O (TMut x)); [now split|]. intros [n E]. discriminate.
Qed.

Lemma set_insert_in a l x : In x (set_insert a l) <-> x = a \/ In x l.
Proof.
  unfold set_insert. destruct (existsb (bytes_eqb a) l) eqn:E.
  - apply existsb_exists in E as (y & Hy & E). apply bytes_eqb_spec in E. subst. split; [auto|]. intros [->|H]; auto.
  - rewrite in_app_iff. cbn. intuition auto.
Qed.

Lemma byte_at_ok e g a i : typed e g -> array_wf 20 a -> i / 32 <= u32_max -> is_byte (byte_at e g a i).
Proof.
  intros HT Ha Hi. unfold byte_at. pose proof (seg_ok e g a (i / 32) HT Ha Hi) as H.
  pose proof (seg_len e g a (i / 32) HT Ha Hi) as HL. unfold bytes_ok in H. rewrite Forall_forall in H.
  apply H, nth_In. rewrite HL. pose proof (N.mod_lt i 32). lia.
Qed.

Lemma get_var_ok e a id buf g v : typed e g -> array_wf 20 (ac_addr a) -> bytes_ok buf ->
  fst (get_var e a id buf g) = Ok v -> bytes_ok v /\ length v = length buf.
Proof.
  intros HT Ha Hb. unfold get_var, gbind.
  destruct (var_range a id (nlen buf)) as [[size segs]|] eqn:E; [|discriminate]. cbn [gsome gret].
  apply var_range_some in E. destruct E as (r & Hr & -> & Hl & Hs & Ho).
  rewrite (var_segments_read e g _ _ _ _ HT Ha Hs Ho). cbn [gret fst]. intros [= <-]. split.
  - apply Forall_app. split; [|now apply skipn_ok]. apply Forall_forall. intros x Hx.
    apply in_map_iff in Hx as (i & <- & Hi). apply range_in in Hi. apply byte_at_ok; auto.
    apply N.div_le_upper_bound; lia.
  - rewrite app_length, map_length, range_length, skipn_length. unfold nlen in Hl. lia.
Qed.

(** The parts of the environment a host call never changes. *)
Definition same_env (f f' : func_env) : Prop :=
  fe_account f' = fe_account f /\ fe_template f' = fe_template f /\ fe_mode f' = fe_mode f
  /\ incl (fe_touched f) (fe_touched f').
Lemma same_env_refl f : same_env f f.
Proof. repeat split; auto. apply incl_refl. Qed.
Lemma same_env_trans f1 f2 f3 : same_env f1 f2 -> same_env f2 f3 -> same_env f1 f3.
Proof. intros (A & B & C & D) (A' & B' & C' & D'). repeat split; try congruence. eapply incl_tran; eauto. Qed.

Definition owner (f : func_env) (x : bytes) : Prop := fe_mode f = FullAccess /\ x = ac_addr (fe_account f).
Definition payers (f f' : func_env) (x : bytes) : Prop := fe_mode f <> AccessDenied /\ In x (fe_touched f').
Definition anyone (f : func_env) (x : bytes) : Prop := fe_mode f <> AccessDenied.

Lemma host_call_cases e f mem c g r g' : iterates e -> collision_free e -> live e g ->
  array_wf 20 (ac_addr (fe_account f)) -> bytes_ok mem -> host_call e f mem c g = (r, g') ->
  live e g' /\
  match r with
  | Ok (v, mem', f') => bytes_ok mem' /\ same_env f f' /\ moves e (payers f f') (owner f) g g'
  | Err _ => False
  | Panic => moves e (anyone f) (owner f) g g'
  end.
Proof.
  intros HI HC HL Ha Hm. pose proof (live_typed e g HI HC HL) as HT.
  assert (KO : forall v mem' f', (Ok (v, mem', f'), g) = (r, g') -> bytes_ok mem' -> same_env f f' ->
     live e g' /\ match r with
      | Ok (v, mem', f') => bytes_ok mem' /\ same_env f f' /\ moves e (payers f f') (owner f) g g'
      | Err _ => False | Panic => moves e (anyone f) (owner f) g g' end).
  { intros v mem' f' [= <- <-] H1 H2. split; auto. split; auto. split; auto. apply moves_refl. }
  assert (KP : (Panic, g) = (r, g') -> live e g' /\ match r with
      | Ok (v, mem', f') => bytes_ok mem' /\ same_env f f' /\ moves e (payers f f') (owner f) g g'
      | Err _ => False | Panic => moves e (anyone f) (owner f) g g' end).
  { intros [= <- <-]. split; auto. apply moves_refl. }
  assert (KS : forall a id bs, fe_account f = a -> bytes_ok bs ->
     (let^ _ := sassert (can_write f) in let^ _ := sunwrap (set_var_bytes e a id bs) in sret (0, mem, f)) g = (r, g') ->
     live e g' /\ match r with
      | Ok (v, mem', f') => bytes_ok mem' /\ same_env f f' /\ moves e (payers f f') (owner f) g g'
      | Err _ => False | Panic => moves e (anyone f) (owner f) g g' end).
  { intros a id bs Ea Hbs. unfold sbind at 1. destruct (can_write f) eqn:Ew; cbn [sassert]; [|exact KP].
    unfold sret at 1, sbind, sunwrap. subst a.
    destruct (set_var_eff e (fe_account f) id bs g HI HC HL Ha Hbs) as [->|(g1 & -> & HL1 & M1)]; [exact KP|].
    intros [= <- <-]. split; auto. split; auto. split; [exact (same_env_refl f)|].
    eapply moves_weaken; [| |exact M1]; [intros ? []|]. intros x ->. split; auto. unfold can_write in Ew.
    now destruct (fe_mode f). }
  destruct c; cbn [host_call].
  - unfold sbind. destruct ((0 <? size) && fe_memory f); cbn [sassert sret]; [|exact KP].
    destruct (_ <? _); [exact KP|]. intros H. eapply KO; eauto. exact (same_env_refl f).
  - unfold sbind. destruct (fe_calldata f) as [[o l]|]; cbn [ssome sret]; [|exact KP].
    intros H. eapply KO; eauto. exact (same_env_refl f).
  - unfold sbind. destruct (fe_calldata f) as [[o l]|]; cbn [ssome sret]; [|exact KP].
    intros H. eapply KO; eauto. exact (same_env_refl f).
  - unfold sbind. destruct (0 <? length); cbn [sassert sret]; [|exact KP].
    intros H. eapply KO; eauto. exact (same_env_refl f).
  - unfold sbind. destruct (can_read f); cbn [sassert sret]; [|exact KP].
    destruct (@unwrap_read unit _ (get_var_i64 e (fe_account f) id) g) as [(v & _ & ->)|[_ ->]]; [|intros H|exact KP].
    + apply reads_bind; [apply reads_get_var|intros; apply reads_ret].
    + eapply KO; eauto. exact (same_env_refl f).
  - unfold set_var_i32. apply KS; auto. apply le_bytes_ok.
  - unfold sbind. destruct (can_read f); cbn [sassert sret]; [|exact KP].
    destruct (@unwrap_read unit _ (get_var_i64 e (fe_account f) id) g) as [(v & _ & ->)|[_ ->]]; [|intros H|exact KP].
    + apply reads_bind; [apply reads_get_var|intros; apply reads_ret].
    + eapply KO; eauto. exact (same_env_refl f).
  - unfold set_var_i64. apply KS; auto. apply le_bytes_ok.
  - unfold sbind. destruct (can_read f && fe_memory f); cbn [sassert sret]; [|exact KP].
    destruct (mem_read mem ptr 20) as [old|]; cbn [ssome sret]; [|exact KP].
    destruct (@unwrap_read unit _ (get_var_array e (fe_account f) 20 id) g) as [(v & Ev & ->)|[_ ->]]; [apply reads_get_var| |exact KP].
    apply get_var_ok in Ev; auto; [|apply bytes_okb_ok; reflexivity]. destruct Ev as [Hv _].
    destruct (mem_write mem ptr v) as [mem'|] eqn:Ew; cbn [ssome sret]; [|exact KP].
    intros H. eapply KO; eauto; [|exact (same_env_refl f)].
    unfold mem_write in Ew. destruct (_ <=? _); [|discriminate]. apply Some_inj in Ew. subst. now apply splice_ok.
  - unfold sbind at 1. destruct (fe_memory f); cbn [sassert sret]; [|exact KP].
    unfold sbind at 1. destruct (mem_read mem ptr 20) as [v|] eqn:Er; cbn [ssome sret]; [|exact KP].
    apply KS; auto. unfold mem_read in Er. destruct (_ <=? _); [|discriminate]. apply Some_inj in Er. subst.
    now apply firstn_ok, skipn_ok.
  - unfold sbind. destruct (fe_memory f); cbn [sassert sret]; [|exact KP].
    destruct (mem_read mem offset length) as [v|]; cbn [ssome sret]; [|exact KP].
    intros H. eapply KO; eauto. exact (same_env_refl f).
  - destruct (amount =? 0).
    { intros H. eapply KO; eauto. exact (same_env_refl f). }
    unfold sbind. destruct (fe_memory f); cbn [sassert sret]; [|exact KP].
    assert (MR : forall off v, mem_read mem off 20 = Some v -> array_wf 20 v).
    { intros off v. unfold mem_read. destruct (N.leb_spec (off + 20) (nlen mem)); [|discriminate]. intros E. apply Some_inj in E. subst.
      split; [rewrite firstn_length, skipn_length; unfold nlen in *; lia|now apply firstn_ok, skipn_ok]. }
    destruct (mem_read mem src 20) as [sa|] eqn:Es; cbn [ssome sret]; [|exact KP].
    destruct (mem_read mem dst 20) as [da|] eqn:Ed; cbn [ssome sret]; [|exact KP].
    destruct (can_read f) eqn:Ec; cbn [sassert sret]; [|exact KP].
    rewrite transfer_between_eq.
    destruct (fst (account_load e sa g)); [|exact KP..]. destruct (fst (account_load e da g)); [|exact KP..].
    destruct (move_coins e sa da amount g) as [r1 g1] eqn:Em.
    destruct (move_coins_cases e sa da amount g r1 g1 HI HC HL) as (HL1 & M1 & K1); eauto.
    assert (Hmode : fe_mode f <> AccessDenied) by (unfold can_read in Ec; destruct (fe_mode f); congruence).
    destruct r1 as [[]|[]|]; [| |intros [= <- <-]; split; auto].
    + intros [= <- <-]. split; auto. split; auto. split.
      { split; [reflexivity|]. split; [reflexivity|]. split; [reflexivity|]. cbn [touch fe_touched]. intros x Hx.
        rewrite !set_insert_in. auto. }
      eapply moves_weaken; [| |exact M1]; [|intros ? []]. intros x Hx. split; auto. cbn [touch fe_touched].
      rewrite !set_insert_in. unfold pair_of in Hx. tauto.
    + contradiction.
    + eapply moves_weaken; [| |exact M1]; [|intros ? []]. intros x Hx. exact Hmode.
Qed.

(* ------------------------------------------------------------------------------------ *)
(** * Running contracts *)

Lemma same_env_owner f f' x : same_env f f' -> (owner f' x <-> owner f x).
Proof. intros (A & B & C & D). unfold owner. rewrite A, C. tauto. Qed.
Lemma same_env_payers f f1 f2 x : same_env f f1 -> payers f1 f2 x -> payers f f2 x.
Proof. intros (A & B & C & D). unfold payers. now rewrite C. Qed.
Lemma payers_mono f f1 f2 x : same_env f1 f2 -> payers f f1 x -> payers f f2 x.
Proof. intros (A & B & C & D) [H1 H2]. split; auto. Qed.
Lemma payers_any f f' x : payers f f' x -> anyone f x.
Proof. now intros [H _]. Qed.
Lemma same_env_any f f' x : same_env f f' -> anyone f' x -> anyone f x.
Proof. intros (A & B & C & D). unfold anyone. now rewrite C. Qed.
Lemma same_env_addr f f' : same_env f f' -> array_wf 20 (ac_addr (fe_account f)) -> array_wf 20 (ac_addr (fe_account f')).
Proof. intros (A & _). now rewrite A. Qed.

Definition ran {R} e f g (r : outcome (bytes * func_env) (bytes * R * func_env)) g' : Prop :=
  live e g' /\
  match r with
  | Ok (mem, _, f') => bytes_ok mem /\ same_env f f' /\ moves e (payers f f') (owner f) g g'
  | Err (_, f') => same_env f f' /\ moves e (payers f f') (owner f) g g'
  | Panic => moves e (anyone f) (owner f) g g'
  end.

Lemma run_wasm_cases {R} e (t : wasm R) : iterates e -> collision_free e -> wasm_wf t ->
  forall f g r g', live e g -> array_wf 20 (ac_addr (fe_account f)) ->
  run_wasm e t f g = (r, g') -> ran e f g r g'.
Proof.
  intros HI HC Hw. induction Hw as [mem x Hm|msg|mem c k Hm Hk IH]; intros f g r g' HL Ha; cbn [run_wasm].
  - intros [= <- <-]. split; auto. split; auto. split; [apply same_env_refl|apply moves_refl].
  - intros [= <- <-]. split; auto. split; [apply same_env_refl|apply moves_refl].
  - destruct (host_call e f mem c g) as [[[[v mem'] f1]|er|] g1] eqn:E;
      apply host_call_cases in E; auto; destruct E as [HL1 E].
    + destruct E as (Hm' & S1 & M1). intros H.
      apply IH in H; auto; [|now apply (same_env_addr f)]. destruct H as [HL2 H]. split; auto.
      assert (OW : forall x, owner f1 x -> owner f x) by (intros; now apply (same_env_owner f f1)).
      destruct r as [[[mem2 x] f2]|[msg f2]|].
      * destruct H as (Hm2 & S2 & M2). split; auto. split; [eapply same_env_trans; eauto|].
        eapply moves_trans.
        -- eapply moves_weaken; [| |exact M1]; auto. intros; now apply (payers_mono f f1).
        -- eapply moves_weaken; [| |exact M2]; auto. intros; now apply (same_env_payers f f1).
      * destruct H as (S2 & M2). split; [eapply same_env_trans; eauto|].
        eapply moves_trans.
        -- eapply moves_weaken; [| |exact M1]; auto. intros; now apply (payers_mono f f1).
        -- eapply moves_weaken; [| |exact M2]; auto. intros; now apply (same_env_payers f f1).
      * eapply moves_trans.
        -- eapply moves_weaken; [| |exact M1]; auto. intros; now apply (payers_any f f1).
        -- eapply moves_weaken; [| |exact H]; auto. intros; now apply (same_env_any f f1).
    + contradiction.
    + intros [= <- <-]. split; auto.
Qed.

Definition called {A} e f g (r : outcome failure A) (env_of : A -> func_env) (mem_of : A -> bytes) g' : Prop :=
  live e g' /\
  match r with
  | Ok a => bytes_ok (mem_of a) /\ same_env f (env_of a) /\ moves e (payers f (env_of a)) (owner f) g g'
  | _ => moves e (anyone f) (owner f) g g'
  end.

Lemma called_panic {A} e f g env_of mem_of : live e g -> @called A e f g Panic env_of mem_of g.
Proof. intros H. split; auto. apply moves_refl. Qed.
Lemma called_err {A} e f g env_of mem_of er : live e g -> @called A e f g (Err er) env_of mem_of g.
Proof. intros H. split; auto. apply moves_refl. Qed.

Definition wc_env {en} (a : bytes * list N * en_inst en * list bytes * func_env) : func_env := snd a.
Definition wc_mem {en} (a : bytes * list N * en_inst en * list bytes * func_env) : bytes := fst (fst (fst (fst a))).

Lemma wasmer_call_cases e en i f name params mem g r g' : iterates e -> collision_free e -> engine_wf en ->
  live e g -> array_wf 20 (ac_addr (fe_account f)) -> bytes_ok mem ->
  wasmer_call e en i f name params mem g = (r, g') -> called e f g r wc_env wc_mem g'.
Proof.
  intros HI HC [_ HE] HL Ha Hm. unfold wasmer_call.
  destruct (run_wasm e (en_call en i name params mem) f g) as [[[[mem' [rets i']] f']|[msg f']|] g1] eqn:E;
    apply run_wasm_cases in E; auto; destruct E as [HL1 E]; intros [= <- <-]; split; auto.
  destruct E as [S M]. eapply moves_weaken; [| |exact M]; auto. intros; now apply (payers_any f f').
Qed.

Lemma call_with_alloc_cases e en i f name calldata mem g r g' : iterates e -> collision_free e -> engine_wf en ->
  live e g -> array_wf 20 (ac_addr (fe_account f)) -> bytes_ok mem -> bytes_ok calldata ->
  call_with_alloc e en i f name calldata mem g = (r, g') -> called e f g r wc_env wc_mem g'.
Proof.
  intros HI HC HE HL Ha Hm Hcd. unfold call_with_alloc.
  destruct (func en i f svm_alloc SigAlloc); [intros [= <- <-]; now apply called_err|].
  unfold sbind at 1.
  destruct (wasmer_call e en i (with_mode AccessDenied f) svm_alloc [nlen calldata] mem g) as [[[[[[mem1 rets] i1] lg] f1]|er|] g1] eqn:E;
    apply wasmer_call_cases in E; auto; destruct E as [HL1 E].
  2,3: intros [= <- <-]; split; auto; eapply moves_weaken; [| |exact E];
    [intros ? Hx; now contradiction Hx|intros ? [Hx _]; discriminate].
  destruct E as (Hm1 & S1 & M1). unfold wc_env, wc_mem in *. cbn [fst snd] in *.
  assert (M1' : forall B, moves e B (owner f) g g1).
  { intros B. eapply moves_weaken; [| |exact M1]; [intros ? [Hx _]; now contradiction Hx|intros ? [Hx _]; discriminate]. }
  assert (KP : forall r1, (@Panic failure _, g1) = (r1, g') -> @called (bytes * list N * en_inst en * list bytes * func_env) e f g r1 wc_env wc_mem g').
  { intros r1 [= <- <-]. split; auto. }
  unfold sbind at 1. destruct (nth_error rets 0) as [offset|]; cbn [ssome]; [|apply KP]. unfold sret at 1.
  unfold sbind at 1. cbn [with_mode fe_returndata]. destruct (fe_returndata f1); cbn [sassert]; [apply KP|]. unfold sret at 1.
  unfold sbind at 1. destruct (mem_write mem1 offset calldata) as [mem2|] eqn:Ew; cbn [ssome]; [|apply KP]. unfold sret at 1.
  set (f2 := with_calldata _ _).
  assert (S2 : same_env f f2).
  { destruct S1 as (A1 & A2 & A3 & A4). split; [exact A1|]. split; [exact A2|]. split; [reflexivity|exact A4]. }
  intros H. apply wasmer_call_cases in H; auto; [|now apply (same_env_addr f)|].
  2:{ unfold mem_write in Ew. destruct (_ <=? _); [|discriminate]. apply Some_inj in Ew. subst. now apply splice_ok. }
  destruct H as [HL2 H]. split; auto.
  assert (OW : forall x, owner f2 x -> owner f x) by (intros; now apply (same_env_owner f f2)).
  destruct r as [a|er|].
  - destruct H as (Hm3 & S3 & M3). split; auto. split; [eapply same_env_trans; eauto|].
    eapply moves_trans; [apply M1'|]. eapply moves_weaken; [| |exact M3]; auto; intros; now apply (same_env_payers f f2).
  - eapply moves_trans; [apply M1'|]. eapply moves_weaken; [| |exact H]; auto; intros; now apply (same_env_any f f2).
  - eapply moves_trans; [apply M1'|]. eapply moves_weaken; [| |exact H]; auto; intros; now apply (same_env_any f f2).
Qed.

Lemma validate_func_usage_reads cl l f g : snd (validate_func_usage cl l f g) = g.
Proof.
  unfold validate_func_usage, ensure_ctor, sbind. destruct (cl_within_spawn cl), (is_ctor l (cl_func cl)) as [[]|]; reflexivity.
Qed.

Definition run_env (a : bytes * list bytes * func_env) : func_env := snd a.
Definition run_mem (a : bytes * list bytes * func_env) : bytes := fst (fst a).

Lemma run_cases e en cl l f g r g' : iterates e -> collision_free e -> engine_wf en ->
  live e g -> array_wf 20 (ac_addr (fe_account f)) -> bytes_ok (cl_input cl) ->
  run e en cl l f g = (r, g') -> called e f g r run_env run_mem g'.
Proof.
  intros HI HC HE HL Ha Hin. unfold run.
  unfold sbind at 1. pose proof (validate_func_usage_reads cl l f g) as RV.
  destruct (validate_func_usage cl l f g) as [[[]|er|] g0]; cbn [snd] in RV; subst g0;
    [|intros [= <- <-]; now apply called_err|intros [= <- <-]; now apply called_panic].
  unfold sbind at 1. unfold instantiate, sbind at 1.
  destruct (code_of l) as [c|]; cbn [ssome]; [|intros [= <- <-]; now apply called_panic]. unfold sret at 1.
  destruct (en_compile en (cs_code c)); [intros [= <- <-]; now apply called_err|].
  destruct (run_wasm e (en_instantiate en (cs_code c)) f g) as [[[[mem i] f1]|[msg f1]|] g1] eqn:E;
    apply run_wasm_cases in E; auto; try apply HE; destruct E as [HL1 E].
  2:{ destruct E as [S M]. intros [= <- <-]. split; auto. eapply moves_weaken; [| |exact M]; auto; intros; now apply (payers_any f f1). }
  2:{ intros [= <- <-]. split; auto. }
  destruct E as (Hm1 & S1 & M1).
  assert (MA : moves e (anyone f) (owner f) g g1).
  { eapply moves_weaken; [| |exact M1]; auto; intros; now apply (payers_any f f1). }
  unfold sbind at 1. destruct (en_has_memory en i); cbn [sassert]; [|intros [= <- <-]; now split]. unfold sret at 1.
  assert (S1' : same_env f (with_memory f1)) by exact S1.
  set (f2 := with_memory f1) in *.
  destruct (func en i f2 (cl_func cl) SigUnit) as [fl|]; [intros [= <- <-]; now split|].
  unfold sbind at 1.
  destruct ((if 0 <? nlen (cl_input cl) then call_with_alloc e en i f2 (cl_func cl) (cl_input cl) mem
       else wasmer_call e en i f2 (cl_func cl) [] mem) g1) as [r2 g2] eqn:E2.
  assert (CL : called e f2 g1 r2 wc_env wc_mem g2).
  { destruct (0 <? nlen (cl_input cl)); [apply call_with_alloc_cases in E2|apply wasmer_call_cases in E2]; auto; now apply (same_env_addr f). }
  clear E2. destruct CL as [HL2 CL].
  assert (OW : forall x, owner f2 x -> owner f x) by (intros; now apply (same_env_owner f f2)).
  destruct r2 as [[[[[mem2 rets] i2] lg] f3]|er|]; intros [= <- <-]; (split; [assumption|]).
  - unfold wc_env, wc_mem, run_env, run_mem in *. cbn [fst snd] in *.
    destruct CL as (Hm3 & S3 & M3). split; auto. split; [eapply same_env_trans; eauto|].
    eapply moves_trans.
    + eapply moves_weaken; [| |exact M1]; auto. intros. apply (payers_mono f f2); auto. 
    + eapply moves_weaken; [| |exact M3]; auto; intros; now apply (same_env_payers f f2).
  - eapply moves_trans; [exact MA|]. eapply moves_weaken; [| |exact CL]; auto; intros; now apply (same_env_any f f2).
  - eapply moves_trans; [exact MA|]. eapply moves_weaken; [| |exact CL]; auto; intros; now apply (same_env_any f f2).
Qed.

(** Checkpoint and commit keep what is read now. *)
Lemma checkpoint_now e g : iterates e -> live e g -> live e (snd (gs_checkpoint e g))
  /\ same_now e g (snd (gs_checkpoint e g)) /\ fst (gs_checkpoint e g) = Ok tt
  /\ has_uncommitted_changes (gs_storage (snd (gs_checkpoint e g))) = false.
Proof.
  intros HI [HR HP]. split.
  { split; [|exact HP]. apply (gr_op e GCheckpoint g); auto. exact I. }
  split; [|split; [reflexivity|]].
  - split; [exact HP|]. split; [exact HP|]. intros k. unfold cur. cbn [gs_checkpoint snd gs_storage].
    unfold get. rewrite (get_checkpoint e _ _ HI (gs_reachable_storage e g HR)). reflexivity.
  - cbn [gs_checkpoint snd gs_storage]. rewrite checkpoint_eq. reflexivity.
Qed.

Lemma commit_now e g : iterates e -> live e g -> has_uncommitted_changes (gs_storage g) = false ->
  live e (snd (gs_commit e g)) /\ same_now e g (snd (gs_commit e g))
  /\ (forall er, fst (gs_commit e g) <> Err er).
Proof.
  intros HI [HR HP] HU.
  destruct (commit_spec e _ HI (gs_reachable_storage e g HR) HU) as (l & prev & fp & s' & _ & Hc & _ & Hn & _).
  assert (E : snd (gs_commit e g) = mkGstate s' (gs_layer_param g)
              /\ forall er, fst (gs_commit e g) <> Err er).
  { unfold gs_commit, gbind, gs_commit_raw. rewrite Hc. cbn [lift]. destruct (layer_of l); cbn; split; congruence. }
  destruct E as [E E']. split; [|split; auto].
  - split; [apply (gr_op e GCommit g); auto; exact I|]. now rewrite E.
  - rewrite E. split; [exact HP|]. split; [exact HP|]. intros k. unfold cur, get. cbn [gs_storage]. now rewrite Hn.
Qed.

Lemma same_now_trans e g1 g2 g3 : same_now e g1 g2 -> same_now e g2 g3 -> same_now e g1 g3.
Proof. intros (A & B & C) (A' & B' & C'). split; auto. split; auto. intros. now rewrite C'. Qed.
Lemma same_now_refl e g : live e g -> same_now e g g.
Proof. intros [_ H]. repeat split; auto. Qed.

Lemma outcome_cases e mem logs f g r g' : iterates e -> live e g ->
  outcome_to_receipt e mem logs f g = (r, g') ->
  live e g' /\ same_now e g g'
  /\ match r with
     | Ok rc => fe_mode f = FullAccess /\ cr_success rc = true /\ cr_error rc = None /\ cr_touched rc = fe_touched f
                /\ cr_logs rc = logs /\ cr_returndata rc = take_returndata f mem
                /\ exists l fp, gs_commit e (snd (gs_checkpoint e g)) = (Ok (l, fp), g') /\ cr_new_state rc = Some fp
     | Err _ => False
     | Panic => True
     end.
Proof.
  intros HI HL. unfold outcome_to_receipt, sbind at 1.
  destruct (take_returndata f mem) as [data|]; cbn [ssome]; [|intros [= <- <-]; auto using same_now_refl]. unfold sret at 1.
  unfold sbind at 1, commit_changes, sbind at 1.
  destruct (can_write f) eqn:Ew; cbn [sassert]; [|intros [= <- <-]; auto using same_now_refl]. unfold sret at 1.
  destruct (checkpoint_now e g HI HL) as (HL1 & S1 & E1 & U1).
  unfold sbind at 1, sunwrap at 1. destruct (gs_checkpoint e g) as [o g1]. cbn [fst snd] in *. subst o.
  destruct (commit_now e g1 HI HL1 U1) as (HL2 & S2 & E2).
  unfold sbind at 1, sunwrap. destruct (gs_commit e g1) as [[[l fp]|er|] g2] eqn:Ec; cbn [fst snd] in *.
  - unfold sret. intros [= <- <-]. split; auto. split; [eapply same_now_trans; eauto|].
    split; [unfold can_write in Ew; now destruct (fe_mode f)|]. cbn. eauto 10.
  - now destruct (E2 er).
  - intros [= <- <-]. split; auto. split; auto. eapply same_now_trans; eauto.
Qed.

Definition executed e cl g (r : outcome failure call_receipt) g' : Prop :=
  live e g' /\
  exists g1, live e g1 /\ same_now e g1 g' /\
  match r with
  | Ok rc => cl_mode cl = FullAccess /\ cr_success rc = true /\ cr_error rc = None
      /\ In (cl_target cl) (cr_touched rc)
      /\ moves e (fun x => In x (cr_touched rc)) (fun x => x = cl_target cl) g g1
      /\ exists l fp, gs_commit e (snd (gs_checkpoint e g1)) = (Ok (l, fp), g') /\ cr_new_state rc = Some fp
  | Err _ => g1 = g' /\ moves e (fun _ => cl_mode cl <> AccessDenied) (fun x => cl_mode cl = FullAccess /\ x = cl_target cl) g g1
  | Panic => moves e (fun _ => cl_mode cl <> AccessDenied) (fun x => cl_mode cl = FullAccess /\ x = cl_target cl) g g1
  end.

Lemma load_addr e a g x : fst (account_load e a g) = Ok x -> ac_addr x = a.
Proof.
  unfold account_load, gbind. destruct (read_and_decode _ _ _ g) as [[d|?|] ?]; try discriminate.
  destruct (template_layout _ _ _) as [[l|?|] ?]; try discriminate. intros [= <-]. reflexivity.
Qed.

Lemma exec_cases e en cl g r g' : iterates e -> collision_free e -> engine_wf en ->
  live e g -> array_wf 20 (cl_target cl) -> bytes_ok (cl_input cl) ->
  exec e en cl g = (r, g') -> executed e cl g r g'.
Proof.
  intros HI HC HE HL Ht Hin. unfold exec, load_template.
  assert (KP : (Panic, g) = (r, g') -> executed e cl g r g').
  { intros [= <- <-]. split; auto. exists g. split; auto. split; [now apply same_now_refl|]. apply moves_refl. }
  unfold sbind at 1. destruct (@unwrap_read failure _ (account_load e (cl_target cl)) g (reads_load e _)) as [(a1 & E1 & R1)|[E1 R1]];
    rewrite R1; [|exact KP].
  unfold sbind at 1. destruct (@unwrap_read failure _ (account_template e (cl_target cl)) g) as [(t & E2 & R2)|[E2 R2]];
    [apply reads_bind; [apply reads_decode|intros; apply reads_ret]|rewrite R2|rewrite R2; exact KP].
  unfold sbind at 1. destruct (@unwrap_read failure _ (template_sections e t) g (reads_sections e t)) as [(l & E3 & R3)|[E3 R3]];
    rewrite R3; [|exact KP].
  unfold sbind at 1. rewrite R1.
  unfold sbind at 1. set (f := env_new a1 (cl_template cl) (cl_mode cl)).
  pose proof (load_addr _ _ _ _ E1) as Ea.
  destruct (run e en cl l f g) as [r1 g1] eqn:Er. apply run_cases in Er; auto; [|cbn; congruence].
  destruct Er as [HL1 Er].
  assert (OW : forall x, owner f x -> cl_mode cl = FullAccess /\ x = cl_target cl) by (intros x [? ?]; cbn in *; split; congruence).
  assert (MF : moves e (anyone f) (owner f) g g1 ->
          moves e (fun _ => cl_mode cl <> AccessDenied) (fun x => cl_mode cl = FullAccess /\ x = cl_target cl) g g1).
  { intros M. eapply moves_weaken; [| |exact M]; auto. }
  destruct r1 as [[[mem logs] f1]|er|]; [|intros [= <- <-]; split; auto; exists g1; split; auto; split; auto using same_now_refl..].
  unfold run_env, run_mem in Er. cbn [fst snd] in Er. destruct Er as (Hm & S & M).
  intros H. apply outcome_cases in H; auto. destruct H as (HL2 & SN & H). split; auto. exists g1. split; auto. split; auto.
  destruct r as [rc|er|].
  - destruct H as (Hmode & Hok & Her & Htch & Hlg & Hrd & Hcm). destruct S as (S1 & S2 & S3 & S4).
    split; [cbn in S3; congruence|]. split; auto. split; auto. split.
    + rewrite Htch. apply S4. cbn. rewrite Ea. now left.
    + split; auto. eapply moves_weaken; [| |exact M].
      * intros x [_ Hx]. now rewrite Htch.
      * intros x Hx. now apply OW in Hx.
  - contradiction.
  - apply MF. eapply moves_weaken; [| |exact M]; auto. intros; now apply (payers_any f f1).
Qed.

(* ------------------------------------------------------------------------------------ *)
(** * Without access nothing changes *)

Lemma host_denied e f mem c g : fe_mode f = AccessDenied ->
  snd (host_call e f mem c g) = g
  /\ forall v mem' f', fst (host_call e f mem c g) = Ok (v, mem', f') -> fe_mode f' = AccessDenied.
Proof.
  intros H. assert (Hr : can_read f = false) by (unfold can_read; now rewrite H).
  assert (Hw : can_write f = false) by (unfold can_write; now rewrite H).
  destruct c; cbn [host_call]; unfold sbind; rewrite ?Hr, ?Hw; cbn [sassert andb spanic fst snd];
    repeat match goal with
    | |- context [match sassert ?b _ with _ => _ end] => destruct b; cbn [sassert sret spanic fst snd]
    | |- context [match ssome ?o _ with _ => _ end] => destruct o as [?|]; cbn [ssome sret spanic fst snd]
    | |- context [let (_, _) := sassert ?b _ in _] => destruct b; cbn [sassert sret spanic fst snd]
    | |- context [let (_, _) := ssome ?o _ in _] => destruct o as [?|]; cbn [ssome sret spanic fst snd]
    | |- context [if ?b then _ else _] => destruct b; cbn [sret spanic fst snd]
    | |- context [let (_, _) := ?p in _] => is_var p; destruct p; cbn [sret spanic fst snd]
    end; (split; [reflexivity|]); intros; try discriminate; match goal with H : Ok _ = Ok _ |- _ => injection H as _ _ <- end; exact H.
Qed.

Lemma run_denied {R} e (t : wasm R) : forall f g, fe_mode f = AccessDenied ->
  snd (run_wasm e t f g) = g
  /\ (forall a, fst (run_wasm e t f g) = Ok a -> fe_mode (snd a) = AccessDenied).
Proof.
  induction t as [mem r|msg|mem c k IH]; intros f g H; cbn [run_wasm fst snd]; try (split; [reflexivity|]; congruence).
  - split; auto. now intros a [= <-].
  - destruct (host_denied e f mem c g H) as [E1 E2].
    destruct (host_call e f mem c g) as [[[[v mem'] f']|er|] g']; cbn [fst snd] in *; subst; try (split; [reflexivity|congruence]).
    apply IH. eapply E2; eauto.
Qed.

Lemma wasmer_denied e en i f name params mem g : fe_mode f = AccessDenied ->
  snd (wasmer_call e en i f name params mem g) = g
  /\ (forall a, fst (wasmer_call e en i f name params mem g) = Ok a -> fe_mode (snd a) = AccessDenied).
Proof.
  intros H. unfold wasmer_call. destruct (run_denied e (en_call en i name params mem) f g H) as [E1 E2].
  destruct (run_wasm _ _ _ _) as [[[[mem' [rets i']] f']|[msg f']|] g1]; cbn [fst snd] in *; subst;
    (split; [reflexivity|]); try congruence.
  intros a [= <-]. cbn. now apply (E2 _ eq_refl).
Qed.

Lemma alloc_denied e en i f name cd mem g : fe_mode f = AccessDenied ->
  snd (call_with_alloc e en i f name cd mem g) = g
  /\ (forall a, fst (call_with_alloc e en i f name cd mem g) = Ok a -> fe_mode (snd a) = AccessDenied).
Proof.
  intros H. unfold call_with_alloc. destruct (func en i f svm_alloc SigAlloc); [split; [reflexivity|intros ? Hx; discriminate Hx]|].
  unfold sbind.
  destruct (wasmer_denied e en i (with_mode AccessDenied f) svm_alloc [nlen cd] mem g eq_refl) as [E1 E2].
  destruct (wasmer_call _ _ _ _ _ _ _ _) as [[[[[[mem1 rets] i1] lg] f1]|er|] g1]; cbn [fst snd] in *; subst;
    try (split; [reflexivity|congruence]).
  destruct (nth_error rets 0); cbn [ssome sret spanic]; [|split; [reflexivity|intros ? Hx; discriminate Hx]].
  destruct (fe_returndata _); cbn [sassert sret spanic]; [split; [reflexivity|intros ? Hx; discriminate Hx]|].
  destruct (mem_write _ _ _); cbn [ssome sret spanic]; [|split; [reflexivity|intros ? Hx; discriminate Hx]].
  apply wasmer_denied. cbn. exact H.
Qed.

Lemma run_all_denied e en cl l f g : fe_mode f = AccessDenied ->
  snd (run e en cl l f g) = g
  /\ (forall a, fst (run e en cl l f g) = Ok a -> fe_mode (snd a) = AccessDenied).
Proof.
  intros H. unfold run, instantiate, sbind. pose proof (validate_func_usage_reads cl l f g) as RV.
  destruct (validate_func_usage cl l f g) as [[[]|er|] g0]; cbn [snd] in RV; subst g0; try (split; [reflexivity|intros ? Hx; discriminate Hx]).
  destruct (code_of l) as [c|]; cbn [ssome sret spanic]; [|split; [reflexivity|intros ? Hx; discriminate Hx]].
  destruct (en_compile en (cs_code c)); [split; [reflexivity|intros ? Hx; discriminate Hx]|].
  destruct (run_denied e (en_instantiate en (cs_code c)) f g H) as [E1 E2].
  destruct (run_wasm e (en_instantiate en (cs_code c)) f g) as [[[[mem i] f1]|[msg f1]|] g1]; cbn [fst snd] in *; subst;
    try (split; [reflexivity|intros ? Hx; discriminate Hx]).
  specialize (E2 _ eq_refl). cbn in E2.
  destruct (en_has_memory en i); cbn [sassert sret spanic]; [|split; [reflexivity|intros ? Hx; discriminate Hx]].
  destruct (func en i (with_memory f1) (cl_func cl) SigUnit); [split; [reflexivity|intros ? Hx; discriminate Hx]|].
  set (m := if 0 <? nlen (cl_input cl) then _ else _).
  assert (HM : snd (m g) = g /\ forall a, fst (m g) = Ok a -> fe_mode (snd a) = AccessDenied).
  { unfold m. destruct (0 <? nlen (cl_input cl)); [apply alloc_denied|apply wasmer_denied]; exact E2. }
  destruct HM as [M1 M2]. destruct (m g) as [[[[[[mem2 rets] i2] lg] f3]|er|] g2]; cbn [fst snd sret] in *; subst;
    try (split; [reflexivity|intros ? Hx; discriminate Hx]).
  split; auto. intros a [= <-]. cbn. now apply (M2 _ eq_refl).
Qed.

Lemma exec_denied e en cl g : cl_mode cl = AccessDenied ->
  snd (exec e en cl g) = g /\ (forall rc, fst (exec e en cl g) <> Ok rc).
Proof.
  intros H. unfold exec, load_template, sbind.
  destruct (@unwrap_read failure _ (account_load e (cl_target cl)) g (reads_load e _)) as [(a1 & E1 & R1)|[E1 R1]];
    rewrite R1; [|split; [reflexivity|intros ? Hx; discriminate Hx]].
  destruct (@unwrap_read failure _ (account_template e (cl_target cl)) g) as [(t & E2 & R2)|[E2 R2]];
    [apply reads_bind; [apply reads_decode|intros; apply reads_ret]|rewrite R2|rewrite R2; split; [reflexivity|intros ? Hx; discriminate Hx]].
  destruct (@unwrap_read failure _ (template_sections e t) g (reads_sections e t)) as [(l & E3 & R3)|[E3 R3]];
    rewrite R3; [|split; [reflexivity|intros ? Hx; discriminate Hx]].
  rewrite R1. destruct (run_all_denied e en cl l (env_new a1 (cl_template cl) (cl_mode cl)) g H) as [M1 M2].
  destruct (run e en cl l _ g) as [[[[mem logs] f]|er|] g1]; cbn [fst snd] in *; subst; try (split; [reflexivity|intros ? Hx; discriminate Hx]).
  specialize (M2 _ eq_refl). cbn in M2.
  unfold outcome_to_receipt, sbind. destruct (take_returndata f mem); cbn [ssome sret spanic]; [|split; [reflexivity|intros ? Hx; discriminate Hx]].
  unfold commit_changes, sbind. replace (can_write f) with false by (unfold can_write; now rewrite M2).
  cbn [sassert spanic]. split; [reflexivity|intros ? Hx; discriminate Hx].
Qed.

Lemma build_call_reads e tx m name input g :
  (exists cl, build_call e tx m name input g = (Ok cl, g) /\ cl_mode cl = m /\ cl_func cl = name
      /\ cl_target cl = tx_target tx /\ cl_input cl = input /\ cl_within_spawn cl = false
      /\ fst (account_template e (tx_target tx) g) = Ok (cl_template cl))
  \/ build_call e tx m name input g = (Panic, g).
Proof.
  unfold build_call, gbind, gunwrap. pose proof (reads_load e (tx_target tx) g) as R1.
  destruct (account_load e (tx_target tx) g) as [[a|?|] g1]; cbn [snd] in R1; subst; auto.
  assert (R2 : reads (account_template e (tx_target tx))) by (apply reads_bind; [apply reads_decode|intros; apply reads_ret]).
  specialize (R2 g). destruct (account_template e (tx_target tx) g) as [[t|?|] g2]; cbn [snd] in R2; subst; auto.
  left. eexists. split; [reflexivity|]. cbn. auto 8.
Qed.

Lemma verify_pure e en m g : snd (verify e en m g) = g
  /\ forall rc, fst (verify e en m g) = Some rc -> cr_success rc = false.
Proof.
  unfold verify. destruct (decoded dec_transaction m) as [tx|]; [|split; [reflexivity|intros ? Hx; discriminate Hx]].
  unfold transact. destruct (build_call_reads e tx AccessDenied svm_verify (tx_verifydata tx) g) as [(cl & -> & Hm & _)| ->];
    [|split; [reflexivity|intros ? Hx; discriminate Hx]].
  unfold exec_call. destruct (exec_denied e en cl g Hm) as [E1 E2].
  destruct (exec e en cl g) as [[rc|[er lg]|] g1]; cbn [fst snd] in *; subst; (split; [reflexivity|]).
  - now destruct (E2 rc).
  - intros rc [= <-]. reflexivity.
  - discriminate.
Qed.

(* ------------------------------------------------------------------------------------ *)
(** * Deploy *)

Lemma kind_eqb_refl k : kind_eqb k k = true.
Proof. now destruct k. Qed.
Lemma kind_eqb_eq a b : kind_eqb a b = true -> a = b.
Proof. now destruct a, b. Qed.

Lemma insert_present s p r : ~ In (section_kind_of s) (map section_kind_of p) ->
  insert_section s (p ++ s :: r) = p ++ s :: r.
Proof.
  induction p as [|y p IH]; cbn [app insert_section map In]; intros H.
  - now rewrite kind_eqb_refl.
  - destruct (kind_eqb (section_kind_of s) (section_kind_of y)) eqn:E.
    + apply kind_eqb_eq in E. exfalso. apply H. auto.
    + now rewrite IH by auto.
Qed.
Lemma merge_self l : NoDup (map section_kind_of l) -> merge_sections l l = l.
Proof.
  intros H. unfold merge_sections.
  assert (G : forall r p, l = p ++ r -> fold_left (fun acc s => insert_section s acc) r l = l).
  { induction r as [|s r IH]; intros p E; [reflexivity|]. cbn [fold_left]. rewrite E at 1. rewrite insert_present.
    - rewrite <- E. apply (IH (p ++ [s])). now rewrite <- app_assoc.
    - rewrite E, map_app in H. cbn [map] in H. apply NoDup_remove_2 in H. intros Hin. apply H, in_or_app. auto. }
  now apply (G l []).
Qed.

Lemma addr_wf e b : hash_wf e -> array_wf 20 (firstn 20 (env_hash e b)).
Proof. intros H. destruct (H b) as [H1 H2]. split; [rewrite firstn_length; lia|now apply firstn_ok]. Qed.

Lemma decoded_canon {A} (enc : encoder A) d wf bs x : canonical enc d wf -> bytes_ok bs -> decoded d bs = Some x -> wf x.
Proof.
  intros H Hb. unfold decoded. destruct (d bs) as [[y r]| |] eqn:E; try discriminate. intros [= <-].
  now apply (H bs y r).
Qed.

Lemma only_not_param e o g : gs_reachable e g -> gop_wf o -> gs_reachable e (run_gop e o g).
Proof. now intros; apply gr_op. Qed.

Lemma deploy_cases e ev m g r g' : iterates e -> collision_free e -> hash_wf e -> live e g -> bytes_ok m ->
  deploy e ev m g = (r, g') ->
  live e g' /\
  (  (r = None /\ g' = g)
  \/ (gas_lt (env_gas_limit ev) (1000 * nlen m) = true /\ r = Some (deploy_from_err OOG []) /\ g' = g)
  \/ exists l c, decoded (dec_sections None) m = Some l /\ code_of l = Some c
       /\ gas_lt (env_gas_limit ev) (1000 * nlen m) = false
       /\ r = Some (deploy_new (template_addr e (cs_code c)) (Some (1000 * nlen m)))
       /\ sections_wf l
       /\ template_sections e (template_addr e (cs_code c)) g' = (Ok l, g')
       /\ only e (fun t => t = TCore (template_addr e (cs_code c)) \/ t = TNon (template_addr e (cs_code c))) g g').
Proof.
  intros HI HC HH HL Hm. pose proof (live_typed e g HI HC HL) as HT. unfold deploy.
  destruct (decoded (dec_sections None) m) as [l|] eqn:Ed; [|intros [= <- <-]; auto].
  unfold deploy_price. destruct (gas_lt _ _) eqn:Eg; [intros [= <- <-]; auto 8|].
  destruct (code_of l) as [c|] eqn:Ec; [|intros [= <- <-]; auto].
  set (addr := template_addr e (cs_code c)). assert (Ha : array_wf 20 addr) by now apply addr_wf.
  destruct (enc_sections l) as [b|] eqn:Ee.
  - assert (Hw : sections_wf l).
    { unfold decoded in Ed. destruct (dec_sections None m) as [[l' rest]| |] eqn:E; try discriminate. injection Ed as ->.
      eapply sections_accepted; eauto. }
    destruct (template_create_effect e addr l l g HC HT Ha Hw Hw) as (g1 & E1 & HT1 & O1 & F1).
    rewrite E1. intros [= <- <-]. destruct HL as [HR HP]. split.
    + split; [|rewrite (on_param _ _ _ _ O1); auto].
      replace g1 with (run_gop e (GTemplate addr l l) g) by (cbn [run_gop]; now rewrite E1). apply gr_op; auto. now split.
    + right. right. exists l, c. do 5 (split; auto). split; [|exact O1].
      etransitivity; [exact (F1 HP)|]. rewrite merge_self; auto. apply Hw.
  - unfold template_create, gbind, encode_and_write, gbind. rewrite Ee. cbn [gsome gpanic].
    intros [= <- <-]. auto.
Qed.

(* ------------------------------------------------------------------------------------ *)
(** * Spawn and call *)

Lemma exec_call_live e en cl g : iterates e -> collision_free e -> engine_wf en -> live e g ->
  array_wf 20 (cl_target cl) -> bytes_ok (cl_input cl) -> live e (snd (exec_call e en cl g)).
Proof.
  intros HI HC HE HL Ht Hin. unfold exec_call. destruct (exec e en cl g) as [r g'] eqn:E.
  apply exec_cases in E; auto. destruct E as [E _]. now destruct r as [?|[? ?]|].
Qed.

Lemma transact_live e en tx m name input g : iterates e -> collision_free e -> engine_wf en -> live e g ->
  array_wf 20 (tx_target tx) -> bytes_ok input -> live e (snd (transact e en tx m name input g)).
Proof.
  intros HI HC HE HL Ht Hin. unfold transact.
  destruct (build_call_reads e tx m name input g) as [(cl & -> & _ & _ & Et & Ei & _)| ->]; [|exact HL].
  apply exec_call_live; auto; congruence.
Qed.

Lemma create_live e addr name taddr b c g : iterates e -> collision_free e -> live e g ->
  array_wf 20 addr -> string_wf 255 name -> array_wf 20 taddr -> uint_wf 64 b -> uint_wf 128 c ->
  live e (snd (account_create e addr name taddr b c g)).
Proof.
  intros HI HC HL Ha Hn Ht Hb Hc. pose proof (live_typed e g HI HC HL) as HT. destruct HL as [HR HP]. split.
  - apply (gr_op e (GCreate addr name taddr b c)); auto. repeat split; try apply Ha; try apply Hn; try apply Ht; auto.
  - unfold account_create, gbind. pose proof (reads_layout e taddr g) as RL.
    destruct (template_layout e taddr g) as [[lay|?|] g0]; cbn [snd] in *; subst; auto.
    destruct (write_account_effect e addr name taddr b c g) as (g1 & -> & _ & O & _); auto.
    cbn. now rewrite (on_param _ _ _ _ O).
Qed.

Lemma reads_exec_prefix sp l g : snd (ensure_ctor (sp_template sp) l (sp_ctor sp) g) = g.
Proof. unfold ensure_ctor, sbind. now destruct (is_ctor l (sp_ctor sp)) as [[]|]. Qed.

Lemma spawn_live e en ev m c g : iterates e -> collision_free e -> hash_wf e -> engine_wf en -> live e g -> bytes_ok m ->
  live e (snd (spawn e en ev m c g)).
Proof.
  intros HI HC HH HE HL Hm. unfold spawn.
  destruct (decoded dec_spawn m) as [sp|] eqn:Ed; [|exact HL].
  assert (Hsp : spawn_wf sp) by (eapply decoded_canon; eauto using spawn_canon).
  pose proof (reads_sections e (sp_template sp) g) as R1.
  destruct (template_sections e (sp_template sp) g) as [[l|?|] g0]; cbn [snd] in R1; subst; auto.
  pose proof (reads_exec_prefix sp l g) as R2.
  destruct (ensure_ctor _ _ _ g) as [[[]|[? ?]|] g0]; cbn [snd] in R2; subst; auto.
  destruct (check_gas_for_func _ _ _ _ _ _) as [[[n|]|] c']; auto.
  assert (HLc : live e (snd (account_create e (account_addr e (sp_template sp)) (sp_name sp) (sp_template sp) 0 0 g))).
  { destruct Hsp as [S1 S2 S3 S4 S5]. apply create_live; auto; try reflexivity. now apply addr_wf. }
  destruct (account_create _ _ _ _ _ _ g) as [[a|?|] g1]; cbn [snd] in *; auto.
  unfold call_ctor.
  set (cl := mkCall _ _ _ _ _ _).
  assert (HLe : live e (snd (exec_call e en cl g1))).
  { apply exec_call_live; auto; cbn; [now apply addr_wf|]. destruct Hsp as [S1 S2 S3 S4 S5]. apply S5. }
  destruct (exec_call e en cl g1) as [[rc|] g2]; exact HLe.
Qed.

Lemma rewind_live e l g : live e g -> live e (snd (rt_rewind l g)).
Proof.
  intros [HR HP]. unfold rt_rewind.
  assert (H : live e (snd (gs_rewind l g))).
  { split; [apply (gr_op e (GRewind l) g); auto; exact I|]. unfold gs_rewind.
    destruct (_ <? _); auto. destruct (rewind _ _) as [? ?]. exact HP. }
  now destruct (gs_rewind l g) as [[?|?|] ?].
Qed.
Lemma rt_commit_live e g : live e g -> live e (snd (rt_commit e g)).
Proof.
  intros [HR HP]. unfold rt_commit.
  assert (H : live e (snd (gs_commit e g))).
  { split; [apply (gr_op e GCommit g); auto; exact I|]. unfold gs_commit, gbind, gs_commit_raw.
    destruct (commit _ _) as [[[i f]|?|] ?]; cbn [lift snd]; auto. destruct (layer_of i); exact HP. }
  now destruct (gs_commit e g) as [[?|?|] ?].
Qed.

Lemma increase_cases e a n g r g' : iterates e -> collision_free e -> live e g -> array_wf 20 a ->
  increase_balance e a n g = (r, g') ->
  live e g' /\ moves e (fun x => x = a) nobody g g'
  /\ match r with
     | Ok _ => exists b, fst (account_balance e a g) = Ok b /\ b + n <= u64_max /\ fst (account_balance e a g') = Ok (b + n)
     | Err _ => False
     | Panic => g' = g
     end.
Proof.
  intros HI HC HL Ha. unfold increase_balance, sbind at 1.
  destruct (@unwrap_read unit _ (account_load e a) g (reads_load e a)) as [(x & E1 & ->)|[E1 ->]].
  2:{ intros [= <- <-]. auto using moves_refl. }
  unfold sbind. destruct (@unwrap_read unit _ (account_balance e a) g (reads_balance e a)) as [(b & E2 & ->)|[E2 ->]].
  2:{ intros [= <- <-]. auto using moves_refl. }
  destruct (N.leb_spec (b + n) u64_max); [|intros [= <- <-]; auto using moves_refl].
  unfold sunwrap.
  destruct (set_balance_cases e a (b + n) g HI HC HL Ha ltac:(lia)) as [(g1 & old & Eo & Ho & -> & HL1 & M1 & B1)|[Eo _]]; [|congruence].
  intros [= <- <-]. split; auto. split; auto. exists b. auto.
Qed.

Lemma transfer_cases e src dst n g r g' : iterates e -> collision_free e -> live e g ->
  array_wf 20 src -> array_wf 20 dst -> transfer e src dst n g = (r, g') ->
  live e g' /\ moves e (pair_of src dst) nobody g g'
  /\ match r with
     | Ok _ => exists bs bd, fst (account_balance e src g) = Ok bs /\ fst (account_balance e dst g) = Ok bd
         /\ n <= bs /\ bd + n <= u64_max /\ fst (account_balance e dst g') = Ok (bd + n)
         /\ (src <> dst -> fst (account_balance e src g') = Ok (bs - n))
     | Err _ => False
     | Panic => (g' = g /\ (~ exists_account e g src \/ ~ exists_account e g dst \/
                  forall bs bd, fst (account_balance e src g) = Ok bs ->
                    fst (account_balance e dst g) = Ok bd -> bs < n))
         \/ exists bs bd, fst (account_balance e src g) = Ok bs /\ fst (account_balance e dst g) = Ok bd
              /\ n <= bs /\ u64_max < bd + n /\ fst (account_balance e src g') = Ok (bs - n)
     end.
Proof.
  intros HI HC HL Hs Hd. rewrite transfer_eq by auto. unfold exists_account.
  destruct (fst (account_load e src g)) as [a1|?|] eqn:E1.
  2,3: intros [= <- <-]; split; auto; split; [apply moves_refl|]; left; split; auto; left; intros [x Hx]; congruence.
  destruct (fst (account_load e dst g)) as [a2|?|] eqn:E2.
  2,3: intros [= <- <-]; split; auto; split; [apply moves_refl|]; left; split; auto; right; left; intros [x Hx]; congruence.
  intros H. apply move_coins_cases in H; auto. destruct H as (H1 & H2 & H3). split; auto. split; auto.
  destruct r; auto. destruct H3 as [[? ?]|H3]; auto.
Qed.

Lemma new_live e ts g : Forall (fun t => array_wf 20 (fst t) /\ sections_wf (snd t)) ts ->
  gs_new e empty_db ts = Some g -> live e g.
Proof.
  intros H1 H2. split; [eapply gr_new; eauto|]. unfold gs_new in H2.
  destruct (open_db empty_db) as [s| |]; try discriminate.
  assert (PP : forall A (m : gm A), preserves (fun g => gs_layer_param g = None) m ->
           gs_layer_param (snd (m (mkGstate s None))) = None) by (intros A m Hm; now apply Hm).
  assert (PI : preserves (fun g => gs_layer_param g = None) (init_genesis e ts)).
  { unfold init_genesis. intros g0 Hg0. destruct (genesis_fingerprint _); auto. revert g0 Hg0.
    change (preserves (fun g => gs_layer_param g = None)
      (let! _ := create_templates e ts in let! _ := gs_checkpoint e in
       let! (id, _) := gs_commit_raw e in if (id =? -1)%Z then gret tt else gpanic)).
    apply preserves_bind.
    { clear. induction ts as [|[a l] ts IH]; cbn [create_templates]; [apply preserves_ret|].
      apply preserves_bind; [apply preserves_some|]. intros [x y]. apply preserves_bind; [|auto].
      apply preserves_bind; intros; unfold encode_and_write;
        (apply preserves_bind; [apply preserves_some|intros ? g0 Hg0; exact Hg0]). }
    intros _. apply preserves_bind; [intros g0 Hg0; exact Hg0|]. intros _.
    apply preserves_bind.
    - intros g0 Hg0. unfold gs_commit_raw. destruct (commit _ _). exact Hg0.
    - intros [id fp]. destruct (id =? -1)%Z; [apply preserves_ret|apply preserves_panic]. }
  specialize (PP _ _ PI). destruct (init_genesis e ts _) as [[[]|?|] g1]; try discriminate.
  injection H2 as <-. exact PP.
Qed.

Lemma rt_live e en g c : iterates e -> collision_free e -> hash_wf e -> engine_wf en ->
  rt_reachable e en g c -> live e g.
Proof.
  intros HI HC HH HE. induction 1 as [ts g Ht Hg|o g c g' c' _ IH Ho E]; [eapply new_live; eauto|].
  destruct o; cbn [run_rop rop_wf] in *.
  - injection E as <- _. destruct (deploy e ev message g) as [r g1] eqn:E. eapply deploy_cases; eauto.
  - pose proof (spawn_live e en ev message c g HI HC HH HE IH Ho) as H.
    destruct (spawn e en ev message c g) as [[r c1] g1]. injection E as <- _. exact H.
  - injection E as <- _. destruct (verify_pure e en message g) as [-> _]. exact IH.
  - injection E as <- _. unfold rt_call. destruct (decoded dec_transaction message) as [tx|] eqn:Ed; [|exact IH].
    assert (Hw : transaction_wf tx) by (eapply decoded_canon; eauto using transaction_canon).
    destruct Hw as [S1 S2 S3 S4 S5]. apply transact_live; auto. apply S5.
  - injection E as <- _. destruct Ho. destruct (transfer e src dst amount g) as [r g1] eqn:E. apply transfer_cases in E; auto. apply E.
  - injection E as <- _. destruct (increase_balance e addr amount g) as [r g1] eqn:E. apply increase_cases in E; auto. apply E.
  - injection E as <- _. destruct Ho as (? & ? & ? & ? & ?). now apply create_live.
  - injection E as <- _. now apply rt_commit_live.
  - injection E as <- _. now apply rewind_live.
Qed.

(* ------------------------------------------------------------------------------------ *)
(** * Conservation of coins *)
From Coq Require Import Permutation.

Lemma supply_perm e g l l' : Permutation l l' -> supply e g l = supply e g l'.
Proof. induction 1; cbn [supply]; lia. Qed.
Lemma supply_same e g g' l : (forall x, In x l -> balance e g' x = balance e g x) -> supply e g' l = supply e g l.
Proof. induction l as [|a l IH]; cbn [supply In]; intros H; [reflexivity|]. rewrite H, IH; auto. Qed.

Lemma two_first (l : list bytes) s d : NoDup l -> In s l -> In d l -> s <> d ->
  exists r, Permutation l (s :: d :: r) /\ ~ In s r /\ ~ In d r.
Proof.
  intros HN Hs Hd Hne. apply in_split in Hs as (l1 & l2 & ->).
  assert (P : Permutation (l1 ++ s :: l2) (s :: l1 ++ l2)) by (symmetry; apply Permutation_middle).
  pose proof (Permutation_NoDup P HN) as HN'. inversion HN' as [|? ? Hs HN2]; subst.
  assert (Hd' : In d (l1 ++ l2)).
  { apply (Permutation_in d P) in Hd. destruct Hd; [contradiction|auto]. }
  apply in_split in Hd' as (m1 & m2 & E). exists (m1 ++ m2). rewrite E in *.
  assert (P2 : Permutation (m1 ++ d :: m2) (d :: m1 ++ m2)) by (symmetry; apply Permutation_middle).
  split; [rewrite P; constructor; exact P2|]. split.
  - intros H. apply Hs, (Permutation_in s (Permutation_sym P2)). now right.
  - pose proof (Permutation_NoDup P2 HN2) as HN3. now inversion HN3.
Qed.

Lemma supply_move e g g' l s d n : NoDup l -> In s l -> In d l -> s <> d ->
  (forall x, In x l -> x <> s -> x <> d -> balance e g' x = balance e g x) ->
  n <= balance e g s -> balance e g' s = balance e g s - n -> balance e g' d = balance e g d + n ->
  supply e g' l = supply e g l.
Proof.
  intros HN Hs Hd Hne Ho Hn E1 E2. destruct (two_first l s d HN Hs Hd Hne) as (r & P & N1 & N2).
  rewrite !(supply_perm _ _ _ _ P). cbn [supply]. rewrite (supply_same e g g' r); [lia|].
  intros x Hx. apply Ho; [|congruence..]. apply (Permutation_in x (Permutation_sym P)). cbn. auto.
Qed.
Lemma supply_two e g l s d : NoDup l -> In s l -> In d l -> s <> d -> balance e g s + balance e g d <= supply e g l.
Proof.
  intros HN Hs Hd Hne. destruct (two_first l s d HN Hs Hd Hne) as (r & P & N1 & N2).
  rewrite (supply_perm _ _ _ _ P). cbn [supply]. lia.
Qed.

Lemma moves_balance e B V g g' x : moves e B V g g' -> array_wf 20 x -> ~ B x ->
  fst (account_balance e x g') = fst (account_balance e x g).
Proof.
  intros [O _] Hx Hn. unfold account_balance. apply bind_read_same. apply decode_same; try apply O.
  apply (on_cur _ _ _ _ O (TMut x)); [now split|auto].
Qed.

(** Moving coins between distinct accounts when the total fits. *)
Lemma move_coins_supply e src dst n g l : iterates e -> collision_free e -> live e g ->
  all_accounts e g l -> supply e g l <= u64_max -> array_wf 20 src -> array_wf 20 dst -> src <> dst ->
  let g' := snd (move_coins e src dst n g) in
  live e g' /\ all_accounts e g' l /\ supply e g' l = supply e g l.
Proof.
  intros HI HC HL (HN & HF & HA) HS Hs Hd Hne. cbn zeta.
  destruct (move_coins e src dst n g) as [r g'] eqn:E. cbn [snd].
  apply move_coins_cases in E; auto. destruct E as (HL' & M & K). split; auto.
  destruct r as [[]|?|].
  - destruct K as (bs & bd & B1 & B2 & L1 & L2 & B3 & B4). specialize (B4 Hne).
    pose proof (HA _ _ Hs B1) as I1. pose proof (HA _ _ Hd B2) as I2. split.
    + split; auto. split; auto. intros x b Hx Hb. destruct (bytes_dec x src) as [->|N1]; auto.
      destruct (bytes_dec x dst) as [->|N2]; auto. apply (HA x b); auto.
      rewrite <- Hb. symmetry. apply (moves_balance _ _ _ _ _ _ M); auto. intros [?|?]; auto.
    + apply (supply_move e g g' l src dst n); auto.
      * intros x Hx N1 N2. unfold balance. rewrite (moves_balance _ _ _ _ _ x M); auto.
        -- rewrite Forall_forall in HF. auto.
        -- intros [?|?]; auto.
      * unfold balance. now rewrite B1.
      * unfold balance. now rewrite B1, B4.
      * unfold balance. now rewrite B2, B3.
  - contradiction.
  - destruct K as [[-> _]|(bs & bd & B1 & B2 & L1 & L2 & _)]; [split; [split|]; auto|].
    exfalso. pose proof (supply_two e g l src dst HN (HA _ _ Hs B1) (HA _ _ Hd B2) Hne) as T.
    unfold balance in T. rewrite B1, B2 in T. lia.
Qed.

Definition conserved (e : env) (l : list bytes) (s : N) (g : gstate) : Prop :=
  live e g /\ all_accounts e g l /\ supply e g l = s.

Lemma conserved_moves e l s g g' V : moves e nobody V g g' -> live e g' -> conserved e l s g -> conserved e l s g'.
Proof.
  intros M HL' (HL & (HN & HF & HA) & HS). split; auto. split.
  - split; auto. split; auto. intros x b Hx Hb. apply (HA x b); auto. rewrite <- Hb. symmetry.
    now apply (moves_balance _ _ _ _ _ _ M).
  - rewrite <- HS. apply supply_same. intros x Hx. unfold balance.
    rewrite Forall_forall in HF. now rewrite (moves_balance _ _ _ _ _ _ M) by auto.
Qed.

(** Host calls that neither write variables nor move coins. *)
Definition writes_nothing (c : host_fn) : Prop :=
  match c with HSet32 _ _ | HSet64 _ _ | HStore160 _ _ | HTransfer _ _ _ => False | _ => True end.
Lemma reads_i64 e a i : reads (get_var_i64 e a i).
Proof. apply reads_bind; [apply reads_get_var|intros; apply reads_ret]. Qed.
Lemma host_pure e f mem c g : writes_nothing c -> snd (host_call e f mem c g) = g.
Proof.
  destruct c; intros H; try contradiction; cbn [host_call]; unfold sbind, sunwrap;
  repeat match goal with
    | |- context [sassert ?b] => destruct b; cbn [sassert]; unfold sret, spanic
    | |- context [ssome (mem_read ?m ?o ?n)] => destruct (mem_read m o n); cbn [ssome]; unfold sret, spanic
    | |- context [ssome (fe_calldata f)] => destruct (fe_calldata f) as [[? ?]|]; cbn [ssome]; unfold sret, spanic
    | |- context [nlen mem <? ?b] => destruct (nlen mem <? b)
    end; try reflexivity.
  - pose proof (reads_i64 e (fe_account f) id g) as R. destruct (get_var_i64 _ _ _ _) as [[?|?|] ?]; exact R.
  - pose proof (reads_i64 e (fe_account f) id g) as R. destruct (get_var_i64 _ _ _ _) as [[?|?|] ?]; exact R.
  - pose proof (reads_get_var e (fe_account f) id (repeat 0 20) g) as R. unfold get_var_array.
    destruct (get_var _ _ _ _ _) as [[v|?|] ?]; try exact R. destruct (mem_write mem ptr v); exact R.
Qed.

Lemma host_call_supply e f mem c g l s : iterates e -> collision_free e -> s <= u64_max ->
  conserved e l s g -> array_wf 20 (ac_addr (fe_account f)) -> bytes_ok mem ->
  (forall src dst n, c = HTransfer src dst n -> mem_read mem src 20 <> mem_read mem dst 20) ->
  conserved e l s (snd (host_call e f mem c g)).
Proof.
  intros HI HC Hs0 HK Ha Hm HT.
  pose proof HK as (HL & HA & HS).
  destruct (host_call e f mem c g) as [r g'] eqn:E. cbn [snd].
  destruct (host_call_cases e f mem c g r g' HI HC HL Ha Hm E) as [HL' _].
  assert (KS : forall id bs, bytes_ok bs ->
     (let^ _ := sassert (can_write f) in let^ _ := sunwrap (set_var_bytes e (fe_account f) id bs) in sret (0, mem, f)) g = (r, g') ->
     conserved e l s g').
  { intros id bs Hbs. unfold sbind at 1. destruct (can_write f); cbn [sassert]; [|now intros [= <- <-]].
    unfold sret at 1, sbind, sunwrap.
    destruct (set_var_eff e (fe_account f) id bs g HI HC HL Ha Hbs) as [->|(g1 & -> & HL1 & M1)]; [now intros [= <- <-]|].
    intros [= <- <-]. eapply conserved_moves; eauto. }
  assert (KR : writes_nothing c -> conserved e l s g').
  { intros H. pose proof (host_pure e f mem c g H) as R. rewrite E in R. cbn in R. now subst. }
  destruct c; try (apply KR; exact I); cbn [host_call] in E.
  - unfold set_var_i32 in E. exact (KS _ _ (le_bytes_ok _ _) E).
  - unfold set_var_i64 in E. exact (KS _ _ (le_bytes_ok _ _) E).
  - unfold sbind at 1 in E. destruct (fe_memory f); cbn [sassert] in E; [|now injection E as <- <-]. unfold sret at 1 in E.
    unfold sbind at 1 in E. destruct (mem_read mem ptr 20) as [v|] eqn:Er; cbn [ssome] in E; [|now injection E as <- <-]. unfold sret at 1 in E.
    refine (KS _ v _ E). unfold mem_read in Er. destruct (_ <=? _); [|discriminate]. apply Some_inj in Er. subst.
    now apply firstn_ok, skipn_ok.
  - destruct (amount =? 0); [now injection E as <- <-|].
    unfold sbind in E. destruct (fe_memory f); cbn [sassert] in E; unfold sret, spanic in E; [|now injection E as <- <-].
    assert (MR : forall off v, mem_read mem off 20 = Some v -> array_wf 20 v).
    { intros off v. unfold mem_read. destruct (N.leb_spec (off + 20) (nlen mem)); [|discriminate]. intros Ee. apply Some_inj in Ee. subst.
      split; [rewrite firstn_length, skipn_length; unfold nlen in *; lia|now apply firstn_ok, skipn_ok]. }
    specialize (HT _ _ _ eq_refl).
    destruct (mem_read mem src 20) as [sa|] eqn:Es; cbn [ssome] in E; unfold sret, spanic in E; [|now injection E as <- <-].
    destruct (mem_read mem dst 20) as [da|] eqn:Ed; cbn [ssome] in E; unfold sret, spanic in E; [|now injection E as <- <-].
    destruct (can_read f); cbn [sassert] in E; unfold sret, spanic in E; [|now injection E as <- <-].
    rewrite transfer_between_eq in E.
    destruct (fst (account_load e sa g)); [|now injection E as <- <-..]. destruct (fst (account_load e da g)); [|now injection E as <- <-..].
    destruct (move_coins_supply e sa da amount g l HI HC HL HA ltac:(lia)) as (C1 & C2 & C3); eauto; [congruence|].
    destruct (move_coins e sa da amount g) as [[[]|?|] g1]; cbn [snd] in *; injection E as <- <-; repeat split; auto; try apply C1; try apply C2; lia.
Qed.

Lemma run_wasm_supply {R} e (t : wasm R) l s : iterates e -> collision_free e -> s <= u64_max ->
  wasm_wf t -> no_self_transfer t ->
  forall f g, conserved e l s g -> array_wf 20 (ac_addr (fe_account f)) -> conserved e l s (snd (run_wasm e t f g)).
Proof.
  intros HI HC Hs Hw. induction Hw as [mem x Hm|msg|mem c k Hm Hk IH]; intros Hn f g HK Ha; cbn [run_wasm snd]; auto.
  inversion Hn as [| |? ? ? N1 N2]; subst.
  pose proof (host_call_supply e f mem c g l s HI HC Hs HK Ha Hm N1) as HK1.
  destruct (host_call e f mem c g) as [[[[v mem'] f1]|er|] g1] eqn:E; cbn [snd] in *; auto.
  apply host_call_cases in E; auto; [|apply HK]. destruct E as (_ & Hm' & S & _).
  apply IH; auto. now apply (same_env_addr f).
Qed.

Lemma wasmer_supply e en i f name params mem g l s : iterates e -> collision_free e -> s <= u64_max ->
  engine_wf en -> contracts_no_self en -> conserved e l s g -> array_wf 20 (ac_addr (fe_account f)) -> bytes_ok mem ->
  conserved e l s (snd (wasmer_call e en i f name params mem g)).
Proof.
  intros HI HC Hs [_ HE] [_ HN] HK Ha Hm. unfold wasmer_call.
  pose proof (run_wasm_supply e (en_call en i name params mem) l s HI HC Hs (HE _ _ _ _ Hm) (HN _ _ _ _) f g HK Ha) as H.
  destruct (run_wasm _ _ _ _) as [[[[mem' [rets i']] f']|[msg f']|] g1]; exact H.
Qed.

Lemma run_supply e en cl sec f g l s : iterates e -> collision_free e -> s <= u64_max ->
  engine_wf en -> contracts_no_self en -> conserved e l s g -> array_wf 20 (ac_addr (fe_account f)) ->
  bytes_ok (cl_input cl) -> conserved e l s (snd (run e en cl sec f g)).
Proof.
  intros HI HC Hs HE HN HK Ha Hin. unfold run, instantiate, sbind.
  pose proof (validate_func_usage_reads cl sec f g) as RV.
  destruct (validate_func_usage cl sec f g) as [[[]|er|] g0]; cbn [snd] in RV; subst g0; auto.
  destruct (code_of sec) as [c|]; cbn [ssome sret spanic snd]; auto.
  destruct (en_compile en (cs_code c)); auto.
  pose proof (run_wasm_supply e (en_instantiate en (cs_code c)) l s HI HC Hs (proj1 HE _) (proj1 HN _) f g HK Ha) as K1.
  destruct (run_wasm e (en_instantiate en (cs_code c)) f g) as [[[[mem i] f1]|[msg f1]|] g1] eqn:E; cbn [snd] in *; auto.
  apply run_wasm_cases in E; auto; [|apply HE|apply HK]. destruct E as (_ & Hm1 & S1 & _).
  destruct (en_has_memory en i); cbn [sassert sret spanic snd]; auto.
  assert (S1' : same_env f (with_memory f1)) by exact S1. set (f2 := with_memory f1) in *.
  assert (Ha2 : array_wf 20 (ac_addr (fe_account f2))) by now apply (same_env_addr f).
  destruct (func en i f2 (cl_func cl) SigUnit) as [fl|]; auto.
  assert (K2 : conserved e l s (snd ((if 0 <? nlen (cl_input cl) then call_with_alloc e en i f2 (cl_func cl) (cl_input cl) mem
       else wasmer_call e en i f2 (cl_func cl) [] mem) g1))).
  { destruct (0 <? nlen (cl_input cl)); [|now apply wasmer_supply]. unfold call_with_alloc, sbind.
    destruct (func en i f2 svm_alloc SigAlloc); [exact K1|].
    pose proof (wasmer_supply e en i (with_mode AccessDenied f2) svm_alloc [nlen (cl_input cl)] mem g1 l s HI HC Hs HE HN K1 Ha2 Hm1) as K3.
    destruct (wasmer_call _ _ _ _ _ _ _ _) as [[[[[[mem1 rets] i1] lg] f3]|er|] g2] eqn:E2; cbn [snd] in *; auto.
    apply wasmer_call_cases in E2; auto; [|apply K1]. destruct E2 as (_ & Hm3 & S3 & _).
    unfold wc_env, wc_mem in *. cbn [fst snd] in *.
    destruct (nth_error rets 0) as [offset|]; cbn [ssome sret spanic snd]; auto.
    destruct (fe_returndata _); cbn [sassert sret spanic snd]; auto.
    destruct (mem_write mem1 offset (cl_input cl)) as [mem2|] eqn:Ew; cbn [ssome sret spanic snd]; auto.
    apply wasmer_supply; auto.
    - destruct S3 as (A3 & _). cbn in A3 |- *. now rewrite A3.
    - unfold mem_write in Ew. destruct (_ <=? _); [|discriminate]. apply Some_inj in Ew. subst. now apply splice_ok. }
  match goal with |- conserved _ _ _ (snd (let (_, _) := ?x in _)) => destruct x as [[[[[[mem2 rets] i2] lg] f3]|er|] g2] end; exact K2.
Qed.

Lemma same_now_conserved e l s g g' : same_now e g g' -> live e g' -> conserved e l s g -> conserved e l s g'.
Proof.
  intros SN HL' (HL & (HN & HF & HA) & HS). split; auto.
  assert (B : forall x, fst (account_balance e x g') = fst (account_balance e x g)).
  { intros x. unfold account_balance. apply bind_read_same. now apply decode_same_now. }
  split.
  - split; auto. split; auto. intros x b Hx Hb. rewrite B in Hb. eauto.
  - rewrite <- HS. apply supply_same. intros x Hx. unfold balance. now rewrite B.
Qed.

Lemma exec_supply e en cl g l s : iterates e -> collision_free e -> s <= u64_max ->
  engine_wf en -> contracts_no_self en -> conserved e l s g -> array_wf 20 (cl_target cl) ->
  bytes_ok (cl_input cl) -> conserved e l s (snd (exec e en cl g)).
Proof.
  intros HI HC Hs HE HN HK Ht Hin. pose proof HK as (HL & _). unfold exec, load_template, sbind.
  destruct (@unwrap_read failure _ (account_load e (cl_target cl)) g (reads_load e _)) as [(a1 & E1 & R1)|[E1 R1]];
    rewrite R1; [|exact HK].
  destruct (@unwrap_read failure _ (account_template e (cl_target cl)) g) as [(t & E2 & R2)|[E2 R2]];
    [apply reads_bind; [apply reads_decode|intros; apply reads_ret]|rewrite R2|rewrite R2; exact HK].
  destruct (@unwrap_read failure _ (template_sections e t) g (reads_sections e t)) as [(sec & E3 & R3)|[E3 R3]];
    rewrite R3; [|exact HK].
  rewrite R1. pose proof (load_addr _ _ _ _ E1) as Ea.
  pose proof (run_supply e en cl sec (env_new a1 (cl_template cl) (cl_mode cl)) g l s HI HC Hs HE HN HK) as K1.
  cbn [env_new fe_account] in K1. rewrite Ea in K1. specialize (K1 Ht Hin).
  destruct (run e en cl sec _ g) as [[[[mem logs] f]|er|] g1]; cbn [snd] in *; auto.
  destruct (outcome_to_receipt e mem logs f g1) as [r g2] eqn:E. apply outcome_cases in E; auto; [|apply K1].
  destruct E as (HL2 & SN & _). cbn [snd]. eapply same_now_conserved; eauto.
Qed.

Lemma call_supply e en m g l : iterates e -> collision_free e -> engine_wf en -> contracts_no_self en ->
  live e g -> bytes_ok m -> all_accounts e g l -> supply e g l <= u64_max ->
  all_accounts e (snd (rt_call e en m g)) l /\ supply e (snd (rt_call e en m g)) l = supply e g l.
Proof.
  intros HI HC HE HN HL Hm HA HS. enough (conserved e l (supply e g l) (snd (rt_call e en m g))) by (destruct H; tauto).
  assert (HK : conserved e l (supply e g l) g) by (split; auto).
  unfold rt_call. destruct (decoded dec_transaction m) as [tx|] eqn:Ed; [|exact HK].
  assert (Hw : transaction_wf tx) by (eapply decoded_canon; eauto using transaction_canon). destruct Hw as [S1 S2 S3 S4 S5].
  unfold transact. destruct (build_call_reads e tx FullAccess (tx_func_name tx) (tx_calldata tx) g) as [(cl & -> & _ & _ & Et & Ei & _)| ->]; [|exact HK].
  unfold exec_call.
  pose proof (exec_supply e en cl g l _ HI HC HS HE HN HK) as K. rewrite Et, Ei in K. specialize (K S2 (proj2 S5)).
  destruct (exec e en cl g) as [[rc|[? ?]|] g1]; exact K.
Qed.

Lemma transfers_supply e ts l : iterates e -> collision_free e ->
  Forall (fun '(src, dst, _) => array_wf 20 src /\ array_wf 20 dst /\ src <> dst) ts ->
  forall g, live e g -> all_accounts e g l -> supply e g l <= u64_max ->
  all_accounts e (run_transfers e ts g) l /\ supply e (run_transfers e ts g) l = supply e g l.
Proof.
  intros HI HC HF. induction HF as [|[[src dst] n] ts (Hs & Hd & Hne) _ IH]; intros g HL HA HS; cbn [run_transfers]; auto.
  assert (K : live e (snd (transfer e src dst n g)) /\ all_accounts e (snd (transfer e src dst n g)) l
              /\ supply e (snd (transfer e src dst n g)) l = supply e g l).
  { rewrite transfer_eq by auto. destruct (fst (account_load e src g)); auto. destruct (fst (account_load e dst g)); auto.
    now apply move_coins_supply. }
  destruct K as (K1 & K2 & K3). rewrite <- K3. apply IH; auto. lia.
Qed.

(* ------------------------------------------------------------------------------------ *)
(** * Calls *)

(** What the last committed layers say is the same in both states. *)
Lemma moves_history e B V g g' : moves e B V g g' ->
  (forall k l, get e (gs_storage g') k (Some l) = get e (gs_storage g) k (Some l))
  /\ last_layer (gs_storage g') = last_layer (gs_storage g).
Proof.
  intros [[O1 O2 O3 O4] _]. split.
  - intros k l. unfold get, get_by_hash. now rewrite O2, O3.
  - unfold last_layer. now rewrite O2, O3.
Qed.

Lemma exec_effect e en cl g o g' : iterates e -> collision_free e -> engine_wf en -> live e g ->
  array_wf 20 (cl_target cl) -> bytes_ok (cl_input cl) -> cl_mode cl = FullAccess -> exec e en cl g = (o, g') ->
  live e g'
  /\ unchanged_except e everyone (fun x => x = cl_target cl) g g'
  /\ match o with
     | Ok rc => cr_success rc = true /\ In (cl_target cl) (cr_touched rc)
         /\ unchanged_except e (fun x => In x (cr_touched rc)) (fun x => x = cl_target cl) g g'
         /\ committed_with g' (cr_new_state rc)
     | Err _ => (forall k l, get e (gs_storage g') k (Some l) = get e (gs_storage g) k (Some l))
         /\ last_layer (gs_storage g') = last_layer (gs_storage g)
     | Panic => True
     end.
Proof.
  intros HI HC HE HL Ht Hi Em E. pose proof (live_typed e g HI HC HL) as HT.
  apply exec_cases in E; auto.
  destruct E as (HL1 & g0 & HL0 & SN & K). rewrite Em in K.
  pose proof (live_typed e g0 HI HC HL0) as HT0. pose proof (live_typed e g' HI HC HL1) as HT1.
  assert (UN : forall B V, unchanged_except e B V g0 g') by (intros; now apply same_now_unchanged).
  split; [exact HL1|].
  destruct o as [rc|[er lg]|].
  - destruct K as (_ & Hok & _ & Hin & M & l & fp & Hcm & Hst).
    assert (U : unchanged_except e (fun x => In x (cr_touched rc)) (fun x => x = cl_target cl) g g').
    { eapply unchanged_trans; [|apply UN]. now apply moves_unchanged. }
    split; [eapply unchanged_weaken; [| |exact U]; [intros; exact I|auto]|]. split; auto. split; auto. split; auto.
    destruct (checkpoint_now e g0 HI HL0) as (HLc & _ & _ & Uc).
    destruct (commit_spec e _ HI (gs_reachable_storage e _ (proj1 HLc)) Uc) as (lz & prev & fp' & s' & _ & Hc & Hll & _).
    unfold gs_commit, gbind, gs_commit_raw in Hcm. rewrite Hc in Hcm. cbn [lift] in Hcm.
    unfold layer_of in Hcm. destruct (Z.ltb_spec lz 0); cbn [gsome gret gpanic] in Hcm; [discriminate|].
    injection Hcm as <- <- <-. exists (Z.to_N lz), fp'. split; [exact Hst|].
    unfold gs_current_layer, gbind. cbn [gs_storage]. rewrite Hll. cbn [lift]. unfold layer_of.
    replace (lz <? 0)%Z with false by lia. reflexivity.
  - destruct K as [-> M]. split; [|exact (moves_history _ _ _ _ _ M)].
    eapply unchanged_weaken; [| |apply moves_unchanged; [exact HT|exact HT1|exact M]]; [intros; exact I|]. now intros x [_ ->].
  - split; auto. eapply unchanged_trans; [|apply UN].
    eapply unchanged_weaken; [| |apply moves_unchanged; [exact HT|exact HT0|exact K]]; [intros; exact I|]. now intros x [_ ->].
Qed.

Lemma call_cases e en m g r g' tx : iterates e -> collision_free e -> engine_wf en -> live e g -> bytes_ok m ->
  decoded dec_transaction m = Some tx -> rt_call e en m g = (r, g') ->
  live e g'
  /\ unchanged_except e everyone (fun x => x = tx_target tx) g g'
  /\ match r with
     | Some rc =>
         if cr_success rc
         then In (tx_target tx) (cr_touched rc)
              /\ unchanged_except e (fun x => In x (cr_touched rc)) (fun x => x = tx_target tx) g g'
              /\ committed_with g' (cr_new_state rc)
         else (forall k l, get e (gs_storage g') k (Some l) = get e (gs_storage g) k (Some l))
              /\ last_layer (gs_storage g') = last_layer (gs_storage g)
     | None => True
     end.
Proof.
  intros HI HC HE HL Hm Ed. unfold rt_call. rewrite Ed.
  assert (Hw : transaction_wf tx) by (eapply decoded_canon; eauto using transaction_canon). destruct Hw as [S1 S2 S3 S4 S5].
  unfold transact.
  destruct (build_call_reads e tx FullAccess (tx_func_name tx) (tx_calldata tx) g) as [(cl & -> & Em & _ & Et & Ei & _)| ->].
  2:{ intros [= <- <-]. split; auto. split; auto. apply unchanged_refl. }
  unfold exec_call. destruct (exec e en cl g) as [o g1] eqn:E.
  apply exec_effect in E; auto; [|congruence|rewrite Ei; apply S5].
  rewrite Et in E. destruct E as (HL1 & U & K).
  destruct o as [rc|[er lg]|]; intros [= <- <-]; (split; [exact HL1|]); (split; [exact U|]).
  - destruct K as (-> & K). exact K.
  - exact K.
  - exact I.
Qed.

(** A successful spawn. *)
Lemma spawn_effect e en ev m c g rc c' g' : iterates e -> collision_free e -> hash_wf e -> engine_wf en ->
  live e g -> bytes_ok m -> spawn e en ev m c g = (Some rc, c', g') -> sr_success rc = true ->
  exists sp, decoded dec_spawn m = Some sp
  /\ let new := account_addr e (sp_template sp) in
     sr_account rc = Some new /\ In new (sr_touched rc) /\ In (env_principal ev) (sr_touched rc)
     /\ committed_with g' (sr_init_state rc)
     /\ fst (account_name e new g') = Ok (sp_name sp) /\ fst (account_template e new g') = Ok (sp_template sp)
     /\ fst (account_counter e new g') = Ok 0
     /\ (forall x, array_wf 20 x -> x <> new ->
           fst (account_name e x g') = fst (account_name e x g)
           /\ fst (account_template e x g') = fst (account_template e x g)
           /\ fst (account_counter e x g') = fst (account_counter e x g)
           /\ (~ In x (sr_touched rc) -> fields_of e x g' = fields_of e x g))
     /\ (forall a id, array_wf 20 (ac_addr a) -> ac_addr a <> new ->
           fst (get_var_vec e a id g') = fst (get_var_vec e a id g))
     /\ (forall t, array_wf 20 t -> fst (template_sections e t g') = fst (template_sections e t g)).
Proof.
  intros HI HC HH HE HL Hm E Hok. pose proof (live_typed e g HI HC HL) as HT. unfold spawn in E.
  destruct (decoded dec_spawn m) as [sp|] eqn:Ed; [|discriminate]. exists sp. split; auto. cbn zeta.
  assert (Hsp : spawn_wf sp) by (eapply decoded_canon; eauto using spawn_canon). destruct Hsp as [S1 S2 S3 S4 S5].
  pose proof (reads_sections e (sp_template sp) g) as R1.
  destruct (template_sections e (sp_template sp) g) as [[l|?|] g0]; cbn [snd] in R1; subst; try discriminate.
  pose proof (reads_exec_prefix sp l g) as R2.
  destruct (ensure_ctor _ _ _ g) as [[[]|[? ?]|] g0]; cbn [snd] in R2; subst; try discriminate.
  2:{ injection E as <- _ _. discriminate. }
  destruct (check_gas_for_func _ _ _ _ _ _) as [[[n|]|] c1]; try discriminate.
  2:{ injection E as <- _ _. discriminate. }
  set (new := account_addr e (sp_template sp)) in *.
  assert (Hnew : array_wf 20 new) by now apply addr_wf.
  assert (HLc : live e (snd (account_create e new (sp_name sp) (sp_template sp) 0 0 g))) by (apply create_live; auto; reflexivity).
  assert (EF : forall a g1, account_create e new (sp_name sp) (sp_template sp) 0 0 g = (Ok a, g1) ->
     only e (fun t => t = TImm new \/ t = TMut new) g g1
     /\ fields_of e new g1 = (Ok (sp_name sp), Ok (sp_template sp), Ok 0, Ok 0)).
  { intros a g1. unfold account_create, gbind. pose proof (reads_layout e (sp_template sp) g) as RL.
    destruct (template_layout e (sp_template sp) g) as [[lay|?|] g0]; cbn [snd] in *; subst; try discriminate.
    destruct (write_account_effect e new (sp_name sp) (sp_template sp) 0 0 g) as (g2 & -> & _ & O & F); auto; try reflexivity.
    cbn [gret]. intros [= _ <-]. split; auto. apply F, HL. }
  destruct (account_create e new _ _ 0 0 g) as [[a|?|] g1]; cbn [snd] in HLc; try discriminate.
  destruct (EF a g1 eq_refl) as [O F]. clear EF. pose proof (live_typed e g1 HI HC HLc) as HT1.
  unfold call_ctor, exec_call in E.
  destruct (exec e en _ g1) as [o g2] eqn:Ex.
  apply exec_effect in Ex; auto; [|apply S5]. cbn [cl_target] in Ex. destruct Ex as (HL2 & U & K).
  assert (X : match o with Ok rc1 => sr_account rc = Some new /\ sr_init_state rc = cr_new_state rc1
                 /\ sr_touched rc = set_insert (env_principal ev) (set_insert new (cr_touched rc1)) /\ g' = g2
              | _ => False end).
  { destruct o as [rc1|[er lg]|]; [| |discriminate].
    - destruct K as (K1 & _). unfold into_spawn_receipt in E. cbn [cr_success] in E. rewrite K1 in E. injection E as <- _ <-. auto.
    - cbn in E. injection E as <- _ _. discriminate. }
  destruct o as [rc1|?|]; try contradiction. destruct X as (X1 & X2 & X3 & ->).
  destruct K as (_ & K2 & [U1 U2 U3 U4] & K4).
  assert (T : forall x, In x (sr_touched rc) <-> x = env_principal ev \/ x = new \/ In x (cr_touched rc1)).
  { intros x. rewrite X3, !set_insert_in. reflexivity. }
  split; auto. split; [apply T; auto|]. split; [apply T; auto|]. split; [now rewrite X2|].
  destruct (U2 new Hnew) as (V1 & V2 & V3). unfold fields_of in F. injection F as F1 F2 F3 F4.
  split; [congruence|]. split; [congruence|]. split; [congruence|]. split; [|split].
  - intros x Hx Hne. destruct (U2 x Hx) as (W1 & W2 & W3).
    assert (FX : fields_of e x g1 = fields_of e x g) by (eapply only_fields; [exact O|exact Hx| |]; intros [Q|Q]; congruence).
    pose proof FX as FX'. unfold fields_of in FX'. injection FX' as Q1 Q2 Q3 Q4.
    split; [congruence|]. split; [congruence|]. split; [congruence|].
    intros Hnt. rewrite U1; auto. rewrite T in Hnt. tauto.
  - intros b id Hb Hne. rewrite U3; auto. eapply only_var_vec; [exact O|exact HT|exact HT1|exact Hb|]. intros k [Q|Q]; discriminate.
  - intros t Ht. rewrite U4; auto. eapply only_sections; [exact O|exact Ht| |]; intros [Q|Q]; discriminate.
Qed.

(** Calling a constructor is refused. *)
Lemma call_ctor_refused e en m g tx taddr l : decoded dec_transaction m = Some tx ->
  exists_account e g (tx_target tx) -> fst (account_template e (tx_target tx) g) = Ok taddr ->
  fst (template_sections e taddr g) = Ok l -> is_ctor l (tx_func_name tx) = Some true ->
  rt_call e en m g
  = (Some (call_from_err (FuncNotAllowed (tx_target tx) taddr (tx_func_name tx) msg_not_allowed) []), g).
Proof.
  intros Ed [a Ea] Et El Hc. unfold rt_call. rewrite Ed. unfold transact.
  assert (EA : account_load e (tx_target tx) g = (Ok a, g)).
  { pose proof (reads_load e (tx_target tx) g). destruct (account_load e (tx_target tx) g). cbn in *. congruence. }
  assert (ET : account_template e (tx_target tx) g = (Ok taddr, g)).
  { assert (R : reads (account_template e (tx_target tx))) by (apply reads_bind; [apply reads_decode|intros; apply reads_ret]).
    specialize (R g). destruct (account_template e (tx_target tx) g). cbn in *. congruence. }
  assert (EL : template_sections e taddr g = (Ok l, g)).
  { pose proof (reads_sections e taddr g). destruct (template_sections e taddr g). cbn in *. congruence. }
  unfold build_call, gbind, gunwrap. rewrite EA, ET. cbn [gret].
  unfold exec_call, exec, load_template, sbind, sunwrap. cbn [cl_target]. rewrite EA, ET, EL.
  unfold run, sbind, validate_func_usage, sbind. cbn [cl_within_spawn cl_func]. rewrite Hc. cbn [ssome sret serr env_new fe_account fe_template].
  rewrite EA. cbn [cl_template]. now rewrite (load_addr _ _ _ _ Ea).
Qed.

(** A successful spawn ran a constructor. *)
Lemma spawn_success_ctor e en ev m c g rc c' g' : spawn e en ev m c g = (Some rc, c', g') -> sr_success rc = true ->
  exists sp l, decoded dec_spawn m = Some sp /\ fst (template_sections e (sp_template sp) g) = Ok l
    /\ is_ctor l (sp_ctor sp) = Some true /\ sr_account rc = Some (account_addr e (sp_template sp)).
Proof.
  unfold spawn. destruct (decoded dec_spawn m) as [sp|] eqn:Ed; [|discriminate].
  destruct (template_sections e (sp_template sp) g) as [[l|?|] g0] eqn:El; try discriminate.
  unfold ensure_ctor, sbind. destruct (is_ctor l (sp_ctor sp)) as [[]|] eqn:Ec; cbn [ssome sret serr spanic]; try discriminate.
  - destruct (check_gas_for_func _ _ _ _ _ _) as [[[n|]|] c1]; try discriminate.
    2:{ intros [= <- _ _]. discriminate. }
    destruct (account_create _ _ _ _ _ _ g0) as [[a|?|] g1]; try discriminate.
    unfold call_ctor. destruct (exec_call _ _ _ g1) as [[rc1|] g2]; try discriminate.
    unfold into_spawn_receipt. cbn [cr_success cr_error]. destruct (cr_success rc1).
    + intros [= <- _ _] _. exists sp, l. rewrite El. auto.
    + destruct (cr_error rc1); cbn [obind]; intros [= <- _ _]; discriminate.
  - intros [= <- _ _]. discriminate.
Qed.

Lemma spawn_not_ctor e en ev m c g sp l : decoded dec_spawn m = Some sp ->
  fst (template_sections e (sp_template sp) g) = Ok l -> is_ctor l (sp_ctor sp) = Some false ->
  spawn e en ev m c g = (Some (spawn_from_err (FuncNotCtor (sp_template sp) (sp_ctor sp)) []), c, g).
Proof.
  intros Ed El Hc. unfold spawn. rewrite Ed.
  pose proof (reads_sections e (sp_template sp) g) as R.
  destruct (template_sections e (sp_template sp) g) as [o g0]. cbn [fst snd] in *. subst.
  unfold ensure_ctor, sbind. now rewrite Hc.
Qed.

(** Spawning without enough gas. *)
Lemma spawn_out_of_gas e en ev m c g sp l n : decoded dec_spawn m = Some sp ->
  fst (template_sections e (sp_template sp) g) = Ok l -> is_ctor l (sp_ctor sp) = Some true ->
  env_gas_limit ev = Some n -> n <= 1000 * nlen m ->
  spawn e en ev m c g = (Some (spawn_from_err OOG []), c, g).
Proof.
  intros Ed El Hc Hg Hn. unfold spawn. rewrite Ed.
  pose proof (reads_sections e (sp_template sp) g) as R.
  destruct (template_sections e (sp_template sp) g) as [o g0]. cbn [fst snd] in *. subst.
  unfold ensure_ctor, sbind. rewrite Hc. cbn [ssome sret]. rewrite Hg.
  assert (E : check_gas_for_payload m (tank_new (Some n)) = Empty).
  { unfold check_gas_for_payload, tank_new, spawn_price. destruct (N.ltb_spec 0 n); cbn [tank_is_empty consume]; [|reflexivity].
    now replace (1000 * nlen m <? n) with false by lia. }
  rewrite E. reflexivity.
Qed.

(* ------------------------------------------------------------------------------------ *)
(** * Host functions *)

Lemma firstn_le s w n : (s <= w)%nat -> firstn s (le_bytes w n) = le_bytes s n.
Proof.
  intros H. assert (E : exists x, be_bytes w n = x ++ be_bytes s n).
  { induction w as [|w IH]; [exists []; now replace s with 0%nat by lia|].
    destruct (Nat.eq_dec s (S w)) as [->|]; [now exists []|].
    destruct IH as [x Hx]; [lia|]. exists (((n / 256 ^ N.of_nat w) mod 256) :: x). cbn [be_bytes app]. now rewrite Hx. }
  destruct E as [x E]. unfold le_bytes. rewrite E, rev_app_distr, firstn_app.
  rewrite rev_length, be_bytes_length, Nat.sub_diag. cbn [firstn]. rewrite app_nil_r.
  apply firstn_all2. now rewrite rev_length, be_bytes_length.
Qed.
Lemma le_value_pad bs k : le_value (bs ++ repeat 0 k) = le_value bs.
Proof.
  unfold le_value. rewrite rev_app_distr.
  assert (E : rev (repeat 0 k) = repeat 0 k).
  { induction k as [|k IH]; [reflexivity|]. cbn [repeat rev]. rewrite IH. clear.
    induction k as [|k IH]; [reflexivity|]. cbn [repeat app]. now rewrite IH. }
  rewrite E. clear E. induction k as [|k IH]; [reflexivity|]. cbn [repeat app be_value].
  rewrite be_value_cons. exact IH.
Qed.

Lemma set_get_array e g a id s w w' n : iterates e -> collision_free e -> live e g -> array_wf 20 (ac_addr a) ->
  declares a id s -> 0 < s -> s <= N.of_nat w -> s <= N.of_nat w' ->
  exists g', set_var_bytes e a id (le_bytes w n) g = (Ok tt, g') /\ live e g'
    /\ exists bs, get_var_array e a w' id g' = (Ok bs, g') /\ le_value bs = n mod 256 ^ s.
Proof.
  intros HI HC HL Ha (first & sizes & i & HF & -> & Hi) H0 Hw Hw'.
  destruct (set_then_get e g a first sizes i s (le_bytes w n) HI HC (proj1 HL) Ha HF Hi H0) as (g' & E & HR & Eg).
  { unfold nlen. now rewrite le_bytes_length. }
  { apply le_bytes_ok. }
  exists g'. split; auto.
  assert (HL' : live e g').
  { destruct (set_var_eff e a (first + N.of_nat i) (le_bytes w n) g HI HC HL Ha (le_bytes_ok _ _)) as [HP|(g2 & E2 & L2 & _)]; congruence. }
  split; auto.
  destruct (declared_get _ _ _ _ _ HF Hi) as (v & Hg & HD & Es & Ho).
  pose proof (live_typed e g' HI HC HL') as HT'.
  rewrite (get_var_vec_eq e a _ g' v Ha HT' Hg) in Eg by lia.
  unfold get_var_array.
  rewrite (get_var_eq e a _ _ g' v Ha HT' Hg) by (unfold nlen; rewrite ?repeat_length; lia).
  injection Eg as Eg. eexists. split; [reflexivity|]. rewrite Eg.
  replace (skipn (N.to_nat (rv_size v)) (repeat 0 w')) with (repeat 0 (w' - N.to_nat (rv_size v))).
  2:{ clear. generalize (N.to_nat (rv_size v)) as k. intros k. revert w'.
      induction k as [|k IH]; intros [|w]; cbn [repeat skipn Nat.sub]; auto. }
  rewrite le_value_pad, firstn_le by lia. rewrite le_value_le_bytes. now rewrite N2Nat.id.
Qed.

Lemma host_set64_get64 e g f mem id s n : iterates e -> collision_free e -> live e g ->
  array_wf 20 (ac_addr (fe_account f)) -> fe_mode f = FullAccess -> declares (fe_account f) id s -> 0 < s -> s <= 8 ->
  exists g', host_call e f mem (HSet64 id n) g = (Ok (0, mem, f), g') /\ live e g'
    /\ host_call e f mem (HGet64 id) g' = (Ok (n mod 256 ^ s, mem, f), g').
Proof.
  intros HI HC HL Ha Hm HD H0 Hs.
  destruct (set_get_array e g (fe_account f) id s 8 8 n HI HC HL Ha HD H0) as (g' & E & HL' & bs & Eg & Ev); try lia.
  exists g'. cbn [host_call]. unfold can_write, can_read. rewrite Hm. cbn [sassert]. unfold sbind, sret at 1.
  unfold sunwrap, set_var_i64. rewrite E. split; [reflexivity|]. split; auto.
  unfold sret at 1, get_var_i64, gbind. rewrite Eg. cbn [gret]. now rewrite Ev.
Qed.
Lemma host_set32_get32 e g f mem id s n : iterates e -> collision_free e -> live e g ->
  array_wf 20 (ac_addr (fe_account f)) -> fe_mode f = FullAccess -> declares (fe_account f) id s -> 0 < s -> s <= 4 ->
  exists g', host_call e f mem (HSet32 id n) g = (Ok (0, mem, f), g') /\ live e g'
    /\ host_call e f mem (HGet32 id) g' = (Ok (n mod 256 ^ s, mem, f), g').
Proof.
  intros HI HC HL Ha Hm HD H0 Hs.
  destruct (set_get_array e g (fe_account f) id s 4 8 n HI HC HL Ha HD H0) as (g' & E & HL' & bs & Eg & Ev); try lia.
  exists g'. cbn [host_call]. unfold can_write, can_read. rewrite Hm. cbn [sassert]. unfold sbind, sret at 1.
  unfold sunwrap, set_var_i32. rewrite E. split; [reflexivity|]. split; auto.
  unfold sret at 1, get_var_i64, gbind. rewrite Eg. cbn [gret]. rewrite Ev.
  rewrite (N.mod_small (n mod 256 ^ s)); [reflexivity|].
  apply N.lt_le_trans with (256 ^ s); [apply N.mod_lt, N.pow_nonzero; lia|].
  change (2 ^ 32) with (256 ^ 4). apply N.pow_le_mono_r; lia.
Qed.

(** Static allocation. *)
Fixpoint ends (u : N) (sizes : list N) : list N :=
  match sizes with [] => [] | n :: r => (u + n) :: ends (u + n) r end.
Lemma allocs_ok e mem sizes : forall f g os f' g', allocs e f mem sizes g = (Ok (os, f'), g') ->
  nlen mem < 2 ^ 32 -> fe_used f <= nlen mem ->
  g' = g /\ os = ends (fe_used f) sizes /\ fe_used f' = fe_used f + total sizes /\ fe_used f' <= nlen mem.
Proof.
  induction sizes as [|n r IH]; cbn [allocs ends total fold_right]; intros f g os f' g' E Hm Hu.
  - injection E as <- <- <-. repeat split; lia.
  - cbn [host_call] in E. unfold sbind in E. destruct (0 <? n); cbn [andb sassert sret spanic] in E; [|discriminate].
    destruct (fe_memory f); cbn [sassert sret spanic] in E; [|discriminate].
    destruct (N.ltb_spec (nlen mem) (fe_used f + n)); [discriminate|]. unfold sret in E.
    destruct (allocs e (with_used (fe_used f + n) f) mem r g) as [[[os2 f2]|?|] g2] eqn:E2; try discriminate.
    injection E as <- <- <-. apply IH in E2; auto. cbn [with_used fe_used] in E2.
    destruct E2 as (-> & -> & E3 & E4). split; auto. split; [|unfold total in *; lia].
    f_equal. apply N.mod_small. lia.
Qed.
Lemma ends_disjoint sizes : forall u, 
  disjoint_in (u + total sizes) (combine (map (fun '(o, n) => o - n) (combine (ends u sizes) sizes)) sizes)
  /\ Forall (fun '(o, n) => u <= o) (combine (map (fun '(o, n) => o - n) (combine (ends u sizes) sizes)) sizes).
Proof.
  induction sizes as [|n r IH]; cbn [ends combine map total fold_right disjoint_in]; intros u; [auto|].
  destruct (IH (u + n)) as [H1 H2]. fold (total r) in *. replace (u + n - n) with u by lia. split.
  - split; [lia|]. split.
    + eapply Forall_impl; [|exact H2]. intros [o k]. lia.
    + now replace (u + (n + total r)) with (u + n + total r) by lia.
  - constructor; [lia|]. eapply Forall_impl; [|exact H2]. intros [o k]. lia.
Qed.

(* ------------------------------------------------------------------------------------ *)
(** * Gas tank *)

Lemma consume_all t l : fold_left consume l t
  = match t with Empty => Empty | NonEmpty n =>
      match l with [] => NonEmpty n | _ => if total l <? n then NonEmpty (n - total l) else Empty end end.
Proof.
  destruct t as [n|].
  2:{ induction l; cbn [fold_left consume]; auto. }
  revert n. induction l as [|x l IH]; intros n; [reflexivity|]. cbn [fold_left consume total fold_right]. fold (total l).
  destruct (N.ltb_spec x n).
  - rewrite IH. destruct l as [|y l].
    + cbn [total fold_right]. rewrite N.add_0_r. now replace (x <? n) with true by lia.
    + destruct (N.ltb_spec (total (y :: l)) (n - x)).
      * replace (x + total (y :: l) <? n) with true by lia. f_equal. lia.
      * now replace (x + total (y :: l) <? n) with false by lia.
  - replace (x + total l <? n) with false by lia. clear. induction l; cbn [fold_left consume]; auto.
Qed.

(** ** Which functions an error of an execution names *)
Lemma exec_ok_error e en cl g r g' : exec e en cl g = (Ok r, g') -> cr_error r = None.
Proof.
  unfold exec, load_template, sbind, sunwrap.
  destruct (account_load _ _ g) as [[?|?|] g1]; try discriminate.
  destruct (account_template _ _ g1) as [[?|?|] g2]; try discriminate.
  destruct (template_sections _ _ g2) as [[?|?|] g3]; try discriminate.
  destruct (account_load _ _ g3) as [[?|?|] g4]; try discriminate.
  destruct (run _ _ _ _ _ g4) as [[[[mem logs] f]|?|] g5]; try discriminate.
  unfold outcome_to_receipt, sbind. destruct (take_returndata f mem) as [d|]; cbn [ssome sret spanic]; try discriminate.
  unfold sret, commit_changes, sbind, sassert. destruct (can_write f); [|discriminate]. unfold sret, sunwrap.
  destruct (gs_checkpoint e g5) as [[?|?|] g6]; try discriminate.
  destruct (gs_commit e g6) as [[[? ?]|?|] g7]; try discriminate. now intros [= <- _].
Qed.

Definition names_only (ns : list bytes) (er : runtime_error) : Prop :=
  match er with
  | FuncFailed _ _ name _ | FuncNotFound _ _ name | FuncInvalidSignature _ _ name | FuncNotAllowed _ _ name _ => In name ns
  | FuncNotCtor _ _ => False
  | _ => True
  end.
Lemma wasmer_names e en i f name ps mem g er logs g' :
  wasmer_call e en i f name ps mem g = (Err (er, logs), g') -> names_only [name] er.
Proof.
  unfold wasmer_call. destruct (run_wasm e (en_call en i name ps mem) f g) as [[[[? [? ?]] ?]|[? ?]|] ?]; try discriminate.
  intros [= <- _ _]. cbn. auto.
Qed.
Lemma func_names en i f name sg fail : func en i f name sg = Some fail -> names_only [name] (fst fail).
Proof.
  unfold func. destruct (en_func en i name) as [s|]; [destruct s, sg|]; intros H; try discriminate H; injection H as <-; cbn; auto.
Qed.
Lemma exec_err_names e en cl g er logs g' : exec e en cl g = (Err (er, logs), g') -> cl_within_spawn cl = false ->
  names_only [cl_func cl; svm_alloc] er.
Proof.
  assert (ONE : forall x y er', names_only [x] er' -> names_only [x; y] er') by (intros x y []; cbn; tauto).
  assert (TWO : forall x y er', names_only [y] er' -> names_only [x; y] er') by (intros x y []; cbn; tauto).
  intros E W. unfold exec, load_template, sbind, sunwrap in E.
  destruct (account_load _ _ g) as [[?|?|] g1]; try discriminate.
  destruct (account_template _ _ g1) as [[?|?|] g2]; try discriminate.
  destruct (template_sections _ _ g2) as [[l|?|] g3]; try discriminate.
  destruct (account_load _ _ g3) as [[x|?|] g4]; try discriminate.
  set (f0 := env_new _ _ _) in E.
  destruct (run e en cl l f0 g4) as [[[[mem logs'] f]|[er' logs']|] g5] eqn:R; try discriminate.
  - exfalso. revert E. unfold outcome_to_receipt, sbind. destruct (take_returndata f mem) as [d|]; cbn [ssome sret spanic]; try discriminate.
    unfold sret, commit_changes, sbind, sassert. destruct (can_write f); [|discriminate]. unfold sret, sunwrap.
    destruct (gs_checkpoint e g5) as [[?|?|] g6]; try discriminate.
    destruct (gs_commit e g6) as [[[? ?]|?|] g7]; discriminate.
  - injection E as <- <- _. unfold run, sbind, validate_func_usage in R. rewrite W in R.
    unfold sbind in R. destruct (is_ctor l (cl_func cl)) as [[]|]; cbn [ssome sret spanic serr] in R; try discriminate R.
    { unfold serr in R. injection R as <- _ _. cbn. auto. }
    unfold instantiate, sbind in R. destruct (code_of l) as [c|]; cbn [ssome sret spanic] in R; try discriminate R. try unfold sret in R at 1.
    destruct (en_compile en (cs_code c)) as [msg|].
    { cbn in R. injection R as <- _ _. exact I. }
    destruct (run_wasm e (en_instantiate en (cs_code c)) f0 g4) as [[[[m1 i] f1]|[? ?]|] g6]; try discriminate R.
    2:{ injection R as <- _ _. exact I. }
    unfold sassert in R. destruct (en_has_memory en i); [|discriminate R]. try unfold sret in R at 1.
    destruct (func en i (with_memory f1) (cl_func cl) SigUnit) as [fail|] eqn:F.
    { unfold serr in R. injection R as -> _. apply func_names in F. now apply ONE. }
    destruct (0 <? nlen (cl_input cl)).
    + unfold call_with_alloc in R. destruct (func en i (with_memory f1) svm_alloc SigAlloc) as [fail|] eqn:F2.
      { cbn in R. injection R as <- _ _. cbn. auto. }
      unfold sbind in R.
      destruct (wasmer_call e en i _ svm_alloc _ m1 g6) as [[[[[[? rets] i1] ?] f2]|[? ?]|] g7] eqn:WA; try discriminate R.
      2:{ injection R as <- _ _. apply wasmer_names in WA. now apply TWO. }
      destruct (nth_error rets 0) as [off|]; cbn [ssome sret spanic] in R; try discriminate R. try unfold sret in R at 1.
      cbv zeta in R. unfold sassert in R. destruct (fe_returndata _) in R; [discriminate R|]. try unfold sret in R at 1.
      destruct (mem_write _ _ _) as [m2|]; cbn [ssome sret spanic] in R; try discriminate R. try unfold sret in R at 1.
      match type of R with context [wasmer_call ?a ?b ?c ?d ?n ?ps ?mm g7] => destruct (wasmer_call a b c d n ps mm g7) as [[[[[[? ?] ?] ?] ?]|[? ?]|] g8] eqn:WB end;
        try discriminate R.
      injection R as <- _ _. apply wasmer_names in WB. now apply ONE.
    + match type of R with context [wasmer_call ?a ?b ?c ?d ?n ?ps ?mm g6] => destruct (wasmer_call a b c d n ps mm g6) as [[[[[[? ?] ?] ?] ?]|[? ?]|] g8] eqn:WB end;
        try discriminate R.
      injection R as <- _ _. apply wasmer_names in WB. now apply ONE.
Qed.
