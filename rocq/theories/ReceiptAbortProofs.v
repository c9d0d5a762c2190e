(** What receipt decoding reads and when it aborts; when receipt encoding aborts. *)
From Coq Require Import List NArith ZArith Lia Bool.
From Coq Require Import ZifyBool ZifyNat ZifyN.
From Verif Require Import Base CodecModel CodecSpec CodecProofs ReceiptModel ReceiptProofs
  AbortSpec AbortProofs ReceiptAbortSpec.
Import ListNotations.
Open Scope N_scope.

(** ** Reading *)

Record reads {A} (d : decoder A) (P : bytes -> Prop) : Prop := {
  r_ok : forall bs x r, bytes_ok bs -> d bs = Ok (x, r) -> exists b, bs = b ++ r /\ P b;
  r_good : forall b r, bytes_ok b -> P b -> exists x, d (b ++ r) = Ok (x, r) }.
Arguments r_ok {A d P}. Arguments r_good {A d P}.

Lemma reads_bind {A B} (d : decoder A) (k : A -> decoder B) P Q :
  reads d P -> (forall a, reads (k a) Q) -> reads (fun bs => let* (a, r) := d bs in k a r) (P ;; Q).
Proof.
  intros H1 H2. split.
  - intros bs x r Hb E. destruct (d bs) as [[a r1]| |] eqn:E1; try discriminate. cbn [bind] in E.
    destruct (r_ok H1 _ _ _ Hb E1) as (b1 & -> & g1). apply bytes_ok_app in Hb as [_ Hb].
    destruct (r_ok (H2 a) _ _ _ Hb E) as (b2 & -> & g2). exists (b1 ++ b2). rewrite app_assoc. split; [auto|].
    exists b1, b2. auto.
  - intros b r Hb (b1 & b2 & -> & g1 & g2). apply bytes_ok_app in Hb as [Hb1 Hb2].
    rewrite <- app_assoc. destruct (r_good H1 b1 (b2 ++ r) Hb1 g1) as [a E]. rewrite E. cbn [bind].
    now apply (r_good (H2 a)).
Qed.

Lemma reads_ext {A} (d : decoder A) P Q : reads d P -> (forall b, bytes_ok b -> (P b <-> Q b)) -> reads d Q.
Proof.
  intros H E. split.
  - intros bs x r Hb E1. destruct (r_ok H _ _ _ Hb E1) as (b & -> & g). apply bytes_ok_app in Hb as [Hb _].
    exists b. split; [auto|]. now apply E.
  - intros b r Hb g. apply (r_good H); [auto|]. now apply E.
Qed.

Lemma reads_ret {A} (x : A) : reads (fun r => Ok (x, r)) (of_length 0).
Proof.
  split.
  - intros bs y r _ [= _ <-]. exists []. split; reflexivity.
  - intros [|] r _ E; [eauto|discriminate].
Qed.

Lemma followed_nil (P : bytes -> Prop) b : (P ;; of_length 0) b <-> P b.
Proof.
  split.
  - intros (x & y & -> & g & E). destruct y; [|discriminate]. now rewrite app_nil_r.
  - intros g. exists b, []. rewrite app_nil_r. repeat split; auto.
Qed.

Lemma reads_map {A B} (d : decoder A) (f : A -> B) P : reads d P ->
  reads (fun bs => let* (x, r) := d bs in Ok (f x, r)) P.
Proof.
  intros H. eapply reads_ext.
  - apply (reads_bind d (fun x r => Ok (f x, r))); [exact H|]. intros x. apply reads_ret.
  - intros b _. apply followed_nil.
Qed.

Lemma reads_describes {A} (d : decoder A) G B P : describes d G B -> (forall b, (exists x, G b x) <-> P b) -> reads d P.
Proof.
  intros H E. split.
  - intros bs x r Hb E1. destruct (d_ok H _ _ _ Hb E1) as (b & -> & g). exists b. split; [auto|]. apply E. eauto.
  - intros b r Hb g. apply E in g as [x g]. exists x. now apply (d_good H).
Qed.

Lemma reads_unwrapped {A} (d : decoder A) P : reads d P -> reads (unwrapped d) P.
Proof.
  intros H. split.
  - intros bs x r Hb E. unfold unwrapped in E. destruct (d bs) as [[y s]| |] eqn:E1; try discriminate.
    injection E as <- <-. now apply (r_ok H) in E1.
  - intros b r Hb g. destruct (r_good H b r Hb g) as [x E]. exists x. unfold unwrapped. now rewrite E.
Qed.

Lemma reads_bytes n : reads (read_bytes n) (of_length n).
Proof.
  eapply reads_describes; [apply describes_bytes|]. intros b. unfold of_length. split.
  - now intros (x & E & _).
  - eauto.
Qed.

Lemma reads_string : reads dec_string text.
Proof. eapply reads_describes; [apply describes_string|]. intros b. reflexivity. Qed.

Lemma reads_blob : reads (dec_data 2) blob.
Proof. eapply reads_describes; [apply (describes_data 2)|]. intros b. reflexivity. Qed.

Lemma reads_gas : reads dec_gas (of_length 8).
Proof.
  eapply reads_ext.
  - apply (reads_bind dec_u64 (fun x r => if x =? 0 then Ok (None, r) else Ok (Some x, r))) with (P := of_length 8) (Q := of_length 0).
    + apply (reads_map (read_bytes 8) be_value), reads_bytes.
    + intros x. destruct (x =? 0); apply reads_ret.
  - intros b _. apply followed_nil.
Qed.

Lemma reads_seq {A} (d : decoder A) P n : reads d P ->
  reads (dec_seq d n) (fun b => exists ps, length ps = n /\ Forall P ps /\ b = concat ps).
Proof.
  intros H. induction n as [|n IH]; cbn [dec_seq].
  - eapply reads_ext; [apply reads_ret|]. intros b _. split.
    + intros E. destruct b; [|discriminate]. exists []. auto.
    + intros (ps & E & _ & ->). destruct ps; [reflexivity|discriminate].
  - eapply reads_ext.
    + apply reads_bind; [exact H|]. intros a. apply (reads_map (dec_seq d n) (cons a)). exact IH.
    + intros b _. split.
      * intros (x & y & -> & g & ps & E & F & ->). exists (x :: ps). cbn [length concat]. split; [lia|]. auto.
      * intros (ps & E & F & ->). destruct F as [|p ps g F]; [discriminate|]. cbn [length] in E.
        exists p, (concat ps). split; [reflexivity|]. split; [auto|]. exists ps. split; [lia|]. auto.
Qed.

Lemma reads_logs : reads dec_logs wire_logs.
Proof.
  split.
  - intros bs x r Hb E. unfold dec_logs in E. destruct bs as [|n bs]; [discriminate|]. cbn [read_byte bind] in E.
    inversion Hb as [|? ? Hn Hb']; subst.
    destruct (r_ok (reads_seq dec_log blob (N.to_nat n) reads_blob) _ _ _ Hb' E) as (b & -> & ps & Hl & HF & ->).
    exists (n :: concat ps). split; [reflexivity|]. exists ps. unfold nlen. rewrite Hl, N2Nat.id.
    split; [exact Hn|]. auto.
  - intros b r Hb (ps & Hl & HF & ->). unfold dec_logs. cbn [app read_byte bind].
    inversion Hb as [|? ? Hn Hb']; subst.
    apply (r_good (reads_seq dec_log blob (N.to_nat (nlen ps)) reads_blob)); [auto|].
    exists ps. unfold nlen. rewrite Nat2N.id. auto.
Qed.

Lemma reads_accounts : reads dec_touched wire_accounts.
Proof.
  assert (L : forall n s, reads (dec_touched_loop n s) (fun b => exists ps, length ps = n /\ Forall (of_length 20) ps /\ b = concat ps)).
  { induction n as [|n IH]; intros s; cbn [dec_touched_loop].
    - eapply reads_ext; [apply reads_ret|]. intros b _. split.
      + intros E. destruct b; [|discriminate]. exists []. auto.
      + intros (ps & E & _ & ->). destruct ps; [reflexivity|discriminate].
    - eapply reads_ext.
      + apply (reads_bind (read_bytes 20) (fun a => dec_touched_loop n (set_insert a s))); [apply reads_bytes|].
        intros a. apply IH.
      + intros b _. split.
        * intros (x & y & -> & g & ps & E & F & ->). exists (x :: ps). cbn [length concat]. split; [lia|]. auto.
        * intros (ps & E & F & ->). destruct F as [|p ps g F]; [discriminate|]. cbn [length] in E.
          exists p, (concat ps). split; [reflexivity|]. split; [auto|]. exists ps. split; [lia|]. auto. }
  split.
  - intros bs x r Hb E. unfold dec_touched in E. destruct (dec_u16 bs) as [[n r1]| |] eqn:E1; try discriminate.
    cbn [bind] in E. destruct (d_ok (describes_uint 2) _ _ _ Hb E1) as (b1 & -> & Hn & ->).
    apply bytes_ok_app in Hb as [_ Hb]. destruct (r_ok (L _ _) _ _ _ Hb E) as (b & -> & ps & Hl & HF & ->).
    exists (be_bytes 2 n ++ concat ps). rewrite app_assoc. split; [auto|]. exists ps. unfold nlen. rewrite Hl, N2Nat.id. auto.
  - intros b r Hb (ps & Hl & HF & ->). unfold dec_touched. rewrite <- app_assoc.
    apply bytes_ok_app in Hb as [Hb1 Hb]. rewrite (d_good (describes_uint 2) (be_bytes 2 (nlen ps)) (nlen ps)); [|auto|split; [exact Hl|reflexivity]].
    cbn [bind]. apply (r_good (L _ _)); [auto|]. exists ps. unfold nlen. rewrite Nat2N.id. auto.
Qed.

(** Two fields of known length are one. *)
Lemma lengths n m Q b : (of_length n ;; of_length m ;; Q) b <-> (of_length (n + m) ;; Q) b.
Proof.
  unfold of_length. split.
  - intros (x & y & -> & Hx & z & w & -> & Hz & q). exists (x ++ z), w. rewrite app_assoc, app_length. auto.
  - intros (x & y & -> & Hx & q). exists (firstn n x), (skipn n x ++ y). rewrite app_assoc, firstn_skipn. split; [auto|].
    split; [rewrite firstn_length; lia|]. exists (skipn n x), y. split; [auto|]. split; [rewrite skipn_length; lia|auto].
Qed.

Lemma reads_error ty : reads (dec_err_body ty) (wire_error ty).
Proof.
  assert (A3 : forall k, reads (dec_addr3 k) (of_length 40 ;; text)).
  { intros k. eapply reads_ext; [|intros b _; apply (lengths 20 20)].
    apply (reads_bind (unwrapped (dec_array ADDRESS_LEN)) (fun t r => let* (a, r) := unwrapped (dec_array ADDRESS_LEN) r in
      let* (s, r) := unwrapped dec_string r in Ok (k a t s, r))); [apply reads_unwrapped, (reads_bytes 20)|]. intros t.
    apply (reads_bind (unwrapped (dec_array ADDRESS_LEN)) (fun a r => let* (s, r) := unwrapped dec_string r in Ok (k a t s, r)));
      [apply reads_unwrapped, (reads_bytes 20)|]. intros a.
    apply (reads_map (unwrapped dec_string) (k a t)), reads_unwrapped, reads_string. }
  assert (A4 : forall k, reads (dec_addr4 k) (of_length 40 ;; text ;; text)).
  { intros k. eapply reads_ext; [|intros b _; apply (lengths 20 20)].
    apply (reads_bind (unwrapped (dec_array ADDRESS_LEN)) (fun t r => let* (a, r) := unwrapped (dec_array ADDRESS_LEN) r in
      let* (f, r) := unwrapped dec_string r in let* (m, r) := unwrapped dec_string r in Ok (k a t f m, r)));
      [apply reads_unwrapped, (reads_bytes 20)|]. intros t.
    apply (reads_bind (unwrapped (dec_array ADDRESS_LEN)) (fun a r => let* (f, r) := unwrapped dec_string r in
      let* (m, r) := unwrapped dec_string r in Ok (k a t f m, r))); [apply reads_unwrapped, (reads_bytes 20)|]. intros a.
    apply (reads_bind (unwrapped dec_string) (fun f r => let* (m, r) := unwrapped dec_string r in Ok (k a t f m, r)));
      [apply reads_unwrapped, reads_string|]. intros f.
    apply (reads_map (unwrapped dec_string) (k a t f)), reads_unwrapped, reads_string. }
  assert (Bad : reads (fun _ => @Panic parse_error (runtime_error * bytes)) (fun _ => False)).
  { split; [discriminate|intros ? ? _ []]. }
  assert (C7 : reads (fun bs => let* (t, r) := unwrapped (dec_array ADDRESS_LEN) bs in
         let* (f, r) := unwrapped dec_string r in Ok (FuncNotCtor t f, r)) (of_length 20 ;; text)).
  { apply (reads_bind (unwrapped (dec_array ADDRESS_LEN)) (fun t r => let* (f, r) := unwrapped dec_string r in Ok (FuncNotCtor t f, r)));
      [apply reads_unwrapped, (reads_bytes 20)|]. intros t.
    apply (reads_map (unwrapped dec_string) (FuncNotCtor t)), reads_unwrapped, reads_string. }
  assert (C1 : forall k : bytes -> runtime_error, reads (fun bs => let* (t, r) := unwrapped (dec_array ADDRESS_LEN) bs in Ok (k t, r)) (of_length 20)).
  { intros k. apply (reads_map (unwrapped (dec_array ADDRESS_LEN)) k), reads_unwrapped, (reads_bytes 20). }
  unfold dec_err_body, wire_error.
  destruct ty as [|[[[[p|p|]|[p|p|]|]|[[p|p|]|[p|p|]|]|]|[[[p|p|]|[p|p|]|]|[[p|p|]|[p|p|]|]|]|]];
    first [exact Bad|apply A3|apply A4|exact C7|apply C1|apply reads_ret].
Qed.

Lemma reads_failure : reads dec_failure wire_failure.
Proof.
  assert (T : forall ty, reads (fun r => let* (logs, r) := unwrapped dec_logs r in
      let* (e, r) := dec_err_body ty r in Ok ((e, logs), r)) (wire_logs ;; wire_error ty)).
  { intros ty. apply (reads_bind (unwrapped dec_logs) (fun logs r => let* (e, r) := dec_err_body ty r in Ok ((e, logs), r)));
      [apply reads_unwrapped, reads_logs|]. intros logs.
    apply (reads_map (dec_err_body ty) (fun e => (e, logs))), reads_error. }
  split.
  - intros bs x r Hb E. unfold dec_failure in E. destruct bs as [|ty bs]; [discriminate|].
    cbn [unwrapped read_byte bind] in E. inversion Hb as [|? ? Ht Hb']; subst.
    destruct (r_ok (T ty) _ _ _ Hb' E) as (b & -> & g). exists (ty :: b). split; [reflexivity|].
    exists ty, [ty], b. auto.
  - intros b r Hb (ty & b1 & b2 & -> & <- & g). apply bytes_ok_app in Hb as [_ Hb].
    exact (r_good (T ty) b2 r Hb g).
Qed.

(** A failure is read or aborts, nothing else. *)
Lemma unwrapped_total {A} (d : decoder A) bs e : unwrapped d bs <> Err e.
Proof. unfold unwrapped. destruct (d bs); discriminate. Qed.
Lemma bind_total {A B} (d : decoder A) (k : A -> decoder B) : (forall bs e, d bs <> Err e) -> (forall a bs e, k a bs <> Err e) ->
  forall bs e, (let* (a, r) := d bs in k a r) <> Err e.
Proof. intros H1 H2 bs e. destruct (d bs) as [[a r]|e0|] eqn:E; cbn [bind]; [apply H2|elim (H1 _ _ E)|discriminate]. Qed.

Lemma error_total ty bs e : dec_err_body ty bs <> Err e.
Proof.
  unfold dec_err_body, dec_addr3, dec_addr4.
  destruct ty as [|[[[[p|p|]|[p|p|]|]|[[p|p|]|[p|p|]|]|]|[[[p|p|]|[p|p|]|]|[[p|p|]|[p|p|]|]|]|]]; try discriminate;
  repeat match goal with
  | |- context[unwrapped ?d ?r] => let X := fresh in destruct (unwrapped d r) as [[? ?]|?|] eqn:X; cbn [bind];
      [|now apply unwrapped_total in X|discriminate]
  end; discriminate.
Qed.
Lemma failure_total bs e : dec_failure bs <> Err e.
Proof.
  unfold dec_failure.
  destruct (unwrapped read_byte bs) as [[ty r]|?|] eqn:X; cbn [bind]; [|now apply unwrapped_total in X|discriminate].
  destruct (unwrapped dec_logs r) as [[ls r1]|?|] eqn:Y; cbn [bind]; [|now apply unwrapped_total in Y|discriminate].
  destruct (dec_err_body ty r1) as [[er r2]|?|] eqn:Z; cbn [bind]; [discriminate|now apply error_total in Z|discriminate].
Qed.

Lemma failure_aborts bs : bytes_ok bs ->
  (dec_failure bs = Panic <-> ~ exists b rest, bs = b ++ rest /\ wire_failure b).
Proof.
  intros Hb. split.
  - intros E (b & rest & -> & g). apply bytes_ok_app in Hb as [Hb _].
    destruct (r_good reads_failure b rest Hb g) as [x F]. congruence.
  - intros H. destruct (dec_failure bs) as [[x r]|e|] eqn:E; [|now apply failure_total in E|auto].
    elim H. destruct (r_ok reads_failure _ _ _ Hb E) as (b & -> & g). eauto.
Qed.

(** ** Receipts *)
Section Kind.
Variables (A : Type) (kind : N) (good : decoder A) (bad : decoder A) (P : bytes -> Prop).
Hypothesis small : kind < 3.
Hypothesis good_reads : reads good P.
Hypothesis good_total : forall bs, good bs <> Panic.
Hypothesis bad_reads : reads bad wire_failure.
Hypothesis bad_panics : forall bs, bad bs = Panic <-> dec_failure bs = Panic.

Definition dec_kind : decoder A := fun bs =>
  let* (ty, r) := read_byte bs in
  if negb (ty =? kind) then Panic else
  let* (v, r) := dec_u16 r in
  if negb (v =? 0) then Panic else
  let* (s, r) := dec_bool r in
  if s : bool then good r else bad r.

Lemma kind_parts r : bytes_ok r ->
  (exists e, dec_kind (kind :: r) = Err e)
  \/ (dec_kind (kind :: r) = Panic /\ exists v rest, v < 65536 /\ v <> 0 /\ r = be_bytes 2 v ++ rest)
  \/ (exists t, r = [0; 0; 1] ++ t /\ dec_kind (kind :: r) = good t)
  \/ (exists t, r = [0; 0; 0] ++ t /\ dec_kind (kind :: r) = bad t).
Proof.
  intros Hb. unfold dec_kind. cbn [read_byte bind]. rewrite N.eqb_refl. cbn [negb].
  destruct (dec_u16 r) as [[v r1]|e|] eqn:E.
  - destruct (d_ok (describes_uint 2) _ _ _ Hb E) as (b & -> & Hv & ->). cbn [bind].
    destruct (N.eqb_spec v 0) as [->|Hne]; cbn [negb]; [|right; left; eauto 6].
    change (be_bytes 2 0) with [0; 0]. unfold dec_bool. destruct r1 as [|f r1]; cbn [read_byte bind]; [eauto|].
    destruct (N.eqb_spec f 1) as [->|]; cbn [bind]; [right; right; left; exists r1; auto|].
    destruct (N.eqb_spec f 0) as [->|]; cbn [bind]; [right; right; right; exists r1; auto|eauto].
  - cbn [bind]. eauto.
  - elim (dec_uint_nopanic _ _ E).
Qed.

Lemma kind_reads bs x r : bytes_ok bs -> dec_kind bs = Ok (x, r) ->
  exists b, bs = b ++ r /\ ((eq [kind; 0; 0; 1] ;; P) b \/ (eq [kind; 0; 0; 0] ;; wire_failure) b).
Proof.
  intros Hb E. destruct bs as [|ty bs]; [discriminate|]. pose proof E as E0. unfold dec_kind in E0. cbn [read_byte bind] in E0.
  destruct (N.eqb_spec ty kind) as [->|]; cbn [negb] in E0; [clear E0|discriminate].
  inversion Hb as [|? ? _ Hb']; subst.
  destruct (kind_parts bs Hb') as [[e F]|[[F _]|[(t & -> & F)|(t & -> & F)]]]; try congruence; rewrite F in E;
    apply bytes_ok_app in Hb' as [_ Hb'].
  - destruct (r_ok good_reads _ _ _ Hb' E) as (b & -> & g). exists ([kind; 0; 0; 1] ++ b). split; [reflexivity|].
    left. eexists _, b. eauto.
  - destruct (r_ok bad_reads _ _ _ Hb' E) as (b & -> & g). exists ([kind; 0; 0; 0] ++ b). split; [reflexivity|].
    right. eexists _, b. eauto.
Qed.

Lemma kind_good b r : bytes_ok b ->
  (eq [kind; 0; 0; 1] ;; P) b \/ (eq [kind; 0; 0; 0] ;; wire_failure) b -> exists x, dec_kind (b ++ r) = Ok (x, r).
Proof.
  intros Hb [(h & t & -> & <- & g)|(h & t & -> & <- & g)]; apply bytes_ok_app in Hb as [_ Hb];
    unfold dec_kind; cbn [app read_byte bind]; rewrite N.eqb_refl; cbn [negb].
  - exact (r_good good_reads t r Hb g).
  - exact (r_good bad_reads t r Hb g).
Qed.

Lemma kind_aborts r : bytes_ok r ->
  (dec_kind (kind :: r) = Panic <->
   (exists v rest, v < 65536 /\ v <> 0 /\ r = be_bytes 2 v ++ rest)
   \/ (exists t, r = [0; 0; 0] ++ t /\ ~ exists b rest, t = b ++ rest /\ wire_failure b)).
Proof.
  intros Hb. split.
  - intros E. destruct (kind_parts r Hb) as [[e F]|[[_ F]|[(t & -> & F)|(t & -> & F)]]];
      [congruence|auto|rewrite F in E; elim (good_total _ E)|].
    rewrite F in E. apply bytes_ok_app in Hb as [_ Hb]. right. exists t. split; [auto|].
    apply failure_aborts; [auto|]. now apply bad_panics.
  - intros [(v & rest & Hv & Hne & ->)|(t & -> & F)].
    + unfold dec_kind. cbn [read_byte bind]. rewrite N.eqb_refl. cbn [negb].
      apply bytes_ok_app in Hb as [Hb _].
      rewrite (d_good (describes_uint 2) (be_bytes 2 v) v) by first [assumption|split; [exact Hv|reflexivity]].
      cbn [bind]. destruct (N.eqb_spec v 0); [contradiction|reflexivity].
    + apply bytes_ok_app in Hb as [_ Hb]. apply failure_aborts in F; [|auto]. apply bad_panics in F.
      unfold dec_kind. cbn [app read_byte bind]. rewrite N.eqb_refl. cbn [negb]. exact F.
Qed.
End Kind.

Lemma reads_call_body : reads call_body (wire_success 2).
Proof.
  apply (reads_bind (dec_array STATE_LEN) (fun st r => let* (rd, r) := dec_return r in _)); [apply (reads_bytes 32)|intros st].
  apply (reads_bind dec_return (fun rd r => let* (g, r) := dec_gas r in _)); [apply reads_blob|intros rd].
  apply (reads_bind dec_gas (fun g r => let* (t, r) := dec_touched r in _)); [apply reads_gas|intros g].
  apply (reads_bind dec_touched (fun t r => let* (l, r) := dec_logs r in _)); [apply reads_accounts|intros t].
  apply (reads_map dec_logs (fun l => mkCallReceipt 0 true None (Some st) (Some rd) g t l)), reads_logs.
Qed.
Lemma reads_spawn_body : reads spawn_body (wire_success 1).
Proof.
  eapply reads_ext; [|intros b _; apply (lengths 20 32)].
  apply (reads_bind (dec_array ADDRESS_LEN) (fun ac r => let* (st, r) := dec_array STATE_LEN r in _)); [apply (reads_bytes 20)|intros ac].
  apply (reads_bind (dec_array STATE_LEN) (fun st r => let* (rd, r) := dec_return r in _)); [apply (reads_bytes 32)|intros st].
  apply (reads_bind dec_return (fun rd r => let* (g, r) := dec_gas r in _)); [apply reads_blob|intros rd].
  apply (reads_bind dec_gas (fun g r => let* (t, r) := dec_touched r in _)); [apply reads_gas|intros g].
  apply (reads_bind dec_touched (fun t r => let* (l, r) := dec_logs r in _)); [apply reads_accounts|intros t].
  apply (reads_map dec_logs (fun l => mkSpawnReceipt 0 true None (Some ac) (Some st) (Some rd) g t l)), reads_logs.
Qed.
Lemma reads_deploy_body : reads deploy_body (wire_success 0).
Proof.
  eapply reads_ext; [|intros b _; apply (lengths 20 8)].
  apply (reads_bind (dec_array ADDRESS_LEN) (fun ad r => let* (g, r) := dec_gas r in _)); [apply (reads_bytes 20)|intros ad].
  apply (reads_bind dec_gas (fun g r => let* (l, r) := dec_logs r in _)); [apply reads_gas|intros g].
  apply (reads_map dec_logs (fun l => mkDeployReceipt 0 true None (Some ad) g l)), reads_logs.
Qed.

Definition failed_call : decoder call_receipt := fun r =>
  let* (x, r) := dec_failure r in Ok (call_from_err (fst x) (snd x), r).
Definition failed_spawn : decoder spawn_receipt := fun r =>
  let* (x, r) := unwrapped dec_failure r in Ok (spawn_from_err (fst x) (snd x), r).
Definition failed_deploy : decoder deploy_receipt := fun r =>
  let* (x, r) := dec_failure r in Ok (deploy_from_err (fst x) (snd x), r).

Lemma map_panics {A B} (d : decoder A) (f : A -> B) bs : (let* (x, r) := d bs in Ok (f x, r)) = Panic <-> d bs = Panic.
Proof. destruct (d bs) as [[x r]|e|]; cbn [bind]; split; congruence. Qed.
Lemma unwrapped_failure_panics bs : unwrapped dec_failure bs = Panic <-> dec_failure bs = Panic.
Proof.
  unfold unwrapped. destruct (dec_failure bs) as [x|e|] eqn:E; split; try congruence.
  now apply failure_total in E.
Qed.

Lemma reads_failed_call : reads failed_call wire_failure.
Proof. apply (reads_map dec_failure (fun x => call_from_err (fst x) (snd x))), reads_failure. Qed.
Lemma reads_failed_spawn : reads failed_spawn wire_failure.
Proof. apply (reads_map (unwrapped dec_failure) (fun x => spawn_from_err (fst x) (snd x))), reads_unwrapped, reads_failure. Qed.
Lemma reads_failed_deploy : reads failed_deploy wire_failure.
Proof. apply (reads_map dec_failure (fun x => deploy_from_err (fst x) (snd x))), reads_failure. Qed.

(** The decoders of the three kinds are instances. *)
Lemma call_is bs : dec_call_receipt bs = dec_kind call_receipt 2 call_body failed_call bs.
Proof.
  unfold dec_call_receipt, dec_kind, call_body, failed_call, TY_CALL. destruct bs as [|ty r]; [reflexivity|]. cbn [read_byte bind].
  destruct (ty =? 2); [cbn [negb]|reflexivity]. destruct (dec_u16 r) as [[v r1]| |]; [cbn [bind]|reflexivity..].
  destruct (N.eqb_spec v 0) as [->|]; reflexivity.
Qed.
Lemma spawn_is bs : dec_spawn_receipt bs = dec_kind spawn_receipt 1 spawn_body failed_spawn bs.
Proof.
  unfold dec_spawn_receipt, dec_kind, spawn_body, failed_spawn, TY_SPAWN. destruct bs as [|ty r]; [reflexivity|]. cbn [read_byte bind].
  destruct (ty =? 1); [cbn [negb]|reflexivity]. destruct (dec_u16 r) as [[v r1]| |]; [cbn [bind]|reflexivity..].
  destruct (N.eqb_spec v 0) as [->|]; reflexivity.
Qed.
Lemma deploy_is bs : dec_deploy_receipt bs = dec_kind deploy_receipt 0 deploy_body failed_deploy bs.
Proof.
  unfold dec_deploy_receipt, dec_kind, deploy_body, failed_deploy, TY_DEPLOY. destruct bs as [|ty r]; [reflexivity|]. cbn [read_byte bind].
  destruct (ty =? 0); [cbn [negb]|reflexivity]. destruct (dec_u16 r) as [[v r1]| |]; [cbn [bind]|reflexivity..].
  destruct (N.eqb_spec v 0) as [->|]; reflexivity.
Qed.

Lemma receipt_aborts bs : bytes_ok bs -> (dec_receipt bs = Panic <-> bad_receipt bs).
Proof.
  intros Hb. destruct bs as [|k r]; [split; [left; reflexivity|reflexivity]|].
  inversion Hb as [|? ? _ Hr]; subst.
  assert (S : bad_receipt (k :: r) <-> k < 3 /\
    ((exists v rest, v < 65536 /\ v <> 0 /\ r = be_bytes 2 v ++ rest)
     \/ (exists t, r = [0; 0; 0] ++ t /\ ~ exists b rest, t = b ++ rest /\ wire_failure b))).
  { unfold bad_receipt. split.
    - intros [E|[(k' & v & rest & Hk & Hv & Hn & E)|(k' & t & Hk & E & F)]]; [discriminate|..].
      + injection E as -> ->. split; [exact Hk|]. left. exists v, rest. auto.
      + injection E as -> ->. split; [exact Hk|]. right. exists t. auto.
    - intros [Hk [(v & rest & Hv & Hn & ->)|(t & -> & F)]]; right; [left|right]; [eauto 9|].
      exists k, t. auto. }
  rewrite S. clear S. cbn [dec_receipt]. unfold TY_DEPLOY, TY_SPAWN, TY_CALL.
  destruct (N.eqb_spec k 0) as [->|N0].
  { rewrite (map_panics dec_deploy_receipt RDeploy), deploy_is.
    rewrite kind_aborts; [|intros; apply np_suffix_ok, np_deploy_body| |exact Hr].
    - split; [intros H; split; [reflexivity|exact H]|intros [_ H]; exact H].
    - intros t. apply (map_panics dec_failure (fun x => deploy_from_err (fst x) (snd x))). }
  destruct (N.eqb_spec k 1) as [->|N1].
  { rewrite (map_panics dec_spawn_receipt RSpawn), spawn_is.
    rewrite kind_aborts; [|intros; apply np_suffix_ok, np_spawn_body| |exact Hr].
    - split; [intros H; split; [reflexivity|exact H]|intros [_ H]; exact H].
    - intros t. unfold failed_spawn. rewrite (map_panics (unwrapped dec_failure) (fun x => spawn_from_err (fst x) (snd x))).
      apply unwrapped_failure_panics. }
  destruct (N.eqb_spec k 2) as [->|N2].
  { rewrite (map_panics dec_call_receipt RCall), call_is.
    rewrite kind_aborts; [|intros; apply np_suffix_ok, np_call_body| |exact Hr].
    - split; [intros H; split; [reflexivity|exact H]|intros [_ H]; exact H].
    - intros t. apply (map_panics dec_failure (fun x => call_from_err (fst x) (snd x))). }
  split; [discriminate|]. intros [H _]. lia.
Qed.

Lemma map_ok {A B} (d : decoder A) (f : A -> B) bs y r : (let* (x, r) := d bs in Ok (f x, r)) = Ok (y, r) -> exists x, d bs = Ok (x, r).
Proof. destruct (d bs) as [[x r']|e|]; cbn [bind]; try discriminate. intros [= _ <-]. eauto. Qed.

Lemma reads_receipt : reads dec_receipt wire_receipt.
Proof.
  split.
  - intros bs x r Hb E. destruct bs as [|k bs]; [discriminate|]. cbn [dec_receipt] in E. unfold TY_DEPLOY, TY_SPAWN, TY_CALL in E.
    destruct (N.eqb_spec k 0) as [->|N0].
    { apply (map_ok dec_deploy_receipt RDeploy) in E as [y E]. rewrite deploy_is in E.
      destruct (kind_reads _ _ _ _ _ reads_deploy_body reads_failed_deploy _ _ _ Hb E) as (b & -> & g).
      exists b. split; [auto|]. exists 0. split; [lia|exact g]. }
    destruct (N.eqb_spec k 1) as [->|N1].
    { apply (map_ok dec_spawn_receipt RSpawn) in E as [y E]. rewrite spawn_is in E.
      destruct (kind_reads _ _ _ _ _ reads_spawn_body reads_failed_spawn _ _ _ Hb E) as (b & -> & g).
      exists b. split; [auto|]. exists 1. split; [lia|exact g]. }
    destruct (N.eqb_spec k 2) as [->|N2]; [|discriminate].
    apply (map_ok dec_call_receipt RCall) in E as [y E]. rewrite call_is in E.
    destruct (kind_reads _ _ _ _ _ reads_call_body reads_failed_call _ _ _ Hb E) as (b & -> & g).
    exists b. split; [auto|]. exists 2. split; [lia|exact g].
  - intros b r Hb (k & Hk & g).
    assert (Hd : exists t, b = k :: t).
    { destruct g as [(h & t & -> & <- & _)|(h & t & -> & <- & _)]; eexists; reflexivity. }
    destruct Hd as [t Et]. assert (K : k = 0 \/ k = 1 \/ k = 2) by lia.
    assert (F : exists x, match k with 0 => let* (d, r) := dec_deploy_receipt (b ++ r) in Ok (RDeploy d, r)
      | 1 => let* (d, r) := dec_spawn_receipt (b ++ r) in Ok (RSpawn d, r)
      | _ => let* (d, r) := dec_call_receipt (b ++ r) in Ok (RCall d, r) end = Ok (x, r)).
    { destruct K as [->|[->| ->]].
      - rewrite deploy_is. destruct (kind_good _ _ _ _ _ reads_deploy_body reads_failed_deploy b r Hb g) as [x ->]. cbn [bind]. eauto.
      - rewrite spawn_is. destruct (kind_good _ _ _ _ _ reads_spawn_body reads_failed_spawn b r Hb g) as [x ->]. cbn [bind]. eauto.
      - rewrite call_is. destruct (kind_good _ _ _ _ _ reads_call_body reads_failed_call b r Hb g) as [x ->]. cbn [bind]. eauto. }
    destruct F as [x F]. exists x. subst b. cbn [app dec_receipt]. cbn [app] in F.
    destruct K as [->|[->| ->]]; exact F.
Qed.

(** ** Encoding *)
Ltac nope := let H := fresh in intros H; exfalso; apply H; reflexivity.
Lemma error_fits_spec e : enc_err_body e <> None <-> error_fits e.
Proof.
  assert (M : forall f m : bytes, ~ (255 < nlen f \/ 255 < nlen m /\ utf8_valid (firstn 255 m) = false) <->
    nlen f <= 255 /\ (255 < nlen m -> utf8_valid (firstn 255 m) = true)).
  { intros f m. destruct (utf8_valid (firstn 255 m)); split; [intros H; split; [lia|auto]|intros [H _] [X|[_ X]]; [lia|discriminate]| |].
    - intros H. split; [lia|]. intros X. elim H. auto.
    - intros [H1 H2] [X|[X _]]; [lia|]. discriminate (H2 X). }
  rewrite enc_err_body_none. destruct e; cbn [error_fits]; try apply M; try lia; tauto.
Qed.

Lemma logs_fit_spec ls : enc_logs ls <> None <-> logs_fit ls.
Proof.
  unfold enc_logs, logs_fit, u8_max.
  assert (S : enc_seq enc_log ls <> None <-> Forall (fun l => nlen l <= 65535) ls).
  { induction ls as [|l ls IH]; cbn [enc_seq]; [split; [constructor|discriminate]|].
    unfold enc_log at 1, u16_max. destruct (N.leb_spec (nlen l) 65535); cbn [obind].
    - destruct (enc_seq enc_log ls); cbn [obind].
      + split; [|discriminate]. intros _. constructor; [auto|]. now apply IH.
      + split; [nope|]. intros F. inversion F; subst. now apply IH.
    - split; [nope|]. intros F. inversion F; subst. lia. }
  destruct (N.leb_spec (nlen ls) 255).
  - destruct (enc_seq enc_log ls); cbn [obind].
    + split; [|discriminate]. intros _. split; [auto|]. now apply S.
    + split; [nope|]. intros [_ F]. now apply S.
  - split; [nope|]. intros [? _]. lia.
Qed.

Lemma failure_fits e ls : enc_failure e ls <> None <-> error_fits e /\ logs_fit ls.
Proof.
  rewrite <- error_fits_spec, <- logs_fit_spec. unfold enc_failure.
  destruct (enc_logs ls); cbn [obind]; [|split; [nope|intros [_ H]; now elim H]].
  destruct (enc_err_body e); cbn [obind]; [|split; [nope|intros [H _]; now elim H]].
  split; [split; discriminate|discriminate].
Qed.

Lemma return_fits d : enc_return d <> None <-> nlen d <= 65535.
Proof.
  unfold enc_return, enc_data. change (256 ^ N.of_nat 2) with 65536.
  destruct (N.ltb_spec (nlen d) 65536); split; try discriminate; try lia. nope.
Qed.
Lemma touched_fits s : enc_touched s <> None <-> nlen s <= 65535.
Proof.
  unfold enc_touched, u16_max. destruct (N.leb_spec (nlen s) 65535); split; try discriminate; try lia. nope.
Qed.

Lemma receipt_encodes r : enc_receipt r <> None <-> encodable r.
Proof.
  destruct r as [d|s|c]; cbn [enc_receipt encodable].
  - unfold enc_deploy_receipt, enc_u16, enc_uint, enc_bool. cbn [obind]. destruct (dr_success d).
    + destruct (dr_addr d); cbn [obind present given]; [|split; [nope|intros [[] _]]].
      unfold enc_array, enc_gas, enc_u64, enc_uint. cbn [obind]. rewrite <- logs_fit_spec.
      destruct (enc_logs (dr_logs d)); cbn [obind]; [|split; [nope|intros [_ H]; now elim H]].
      split; [split; [exact I|discriminate]|discriminate].
    + destruct (dr_error d) as [e|]; cbn [obind given]; [|split; [nope|intros []]].
      transitivity (enc_failure e [] <> None).
      * destruct (enc_failure e []); cbn [obind]; (split; [nope || discriminate|nope || discriminate]).
      * rewrite failure_fits. split; [tauto|]. intros H. split; [auto|]. split; [cbn; lia|constructor].
  - unfold enc_spawn_receipt, enc_u16, enc_uint, enc_bool. cbn [obind]. destruct (sr_success s).
    + destruct (sr_account s); cbn [obind present given]; [|split; [nope|tauto]].
      destruct (sr_init_state s); cbn [obind present given enc_array]; [|split; [nope|tauto]].
      destruct (sr_returndata s) as [rd|]; cbn [obind present given enc_array]; [|split; [nope|tauto]].
      rewrite <- return_fits, <- touched_fits, <- logs_fit_spec. unfold enc_gas, enc_u64, enc_uint.
      destruct (enc_return rd); cbn [obind]; [|split; [nope|tauto]].
      destruct (enc_touched (sr_touched s)); cbn [obind]; [|split; [nope|tauto]].
      destruct (enc_logs (sr_logs s)); cbn [obind]; [|split; [nope|tauto]].
      split; [|discriminate]. intros _. repeat split; discriminate.
    + destruct (sr_error s) as [e|]; cbn [obind given]; [|split; [nope|intros [[] _]]].
      rewrite <- failure_fits. destruct (enc_failure e (sr_logs s)); cbn [obind]; (split; [nope || discriminate|nope || discriminate]).
  - unfold enc_call_receipt, enc_u16, enc_uint, enc_bool. cbn [obind]. destruct (cr_success c).
    + destruct (cr_new_state c); cbn [obind present given enc_array]; [|split; [nope|tauto]].
      destruct (cr_returndata c) as [rd|]; cbn [obind present given enc_array]; [|split; [nope|tauto]].
      rewrite <- return_fits, <- touched_fits, <- logs_fit_spec. unfold enc_gas, enc_u64, enc_uint.
      destruct (enc_return rd); cbn [obind]; [|split; [nope|tauto]].
      destruct (enc_touched (cr_touched c)); cbn [obind]; [|split; [nope|tauto]].
      destruct (enc_logs (cr_logs c)); cbn [obind]; [|split; [nope|tauto]].
      split; [|discriminate]. intros _. repeat split; discriminate.
    + destruct (cr_error c) as [e|]; cbn [obind given]; [|split; [nope|intros [[] _]]].
      rewrite <- failure_fits. destruct (enc_failure e (cr_logs c)); cbn [obind]; (split; [nope || discriminate|nope || discriminate]).
Qed.
