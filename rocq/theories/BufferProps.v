(** Buffers of the codec's wasm interface: C49. *)
From Coq Require Import String.
From Coq Require Import List NArith ZArith Bool Lia ZifyBool ZifyNat ZifyN.
From Verif Require Import Base Text CodecModel BufferModel BufferSpec BufferProofs.
Import ListNotations.
Open Scope list_scope.
Open Scope N_scope.

(** ** C49 Buffers are byte strings of fixed length.
    For every history of a client that uses only pointers it holds and stays inside the data,
    each reply is the one a store of independent byte strings would give, and the memory in use
    is that of the buffers not freed yet. *)
Theorem C49_store :
  forall al ops, allocates al ->
  forall replies h, client_run al ops [] = (replies, h) ->
  keeps_rules al [] (combine ops replies) ->
  exists s, history al [] (combine ops replies) s /\ shape h = footprint s.
Proof.
  intros al ops HA replies h E HR.
  destruct (client_run_ok al ops [] [] HA) as (s & H & K).
  - split; [reflexivity|]. split; [exact Logic.I|constructor].
  - rewrite E. exact HR.
  - rewrite E in H, K. cbn [fst snd] in H, K. exists s. split; [exact H|]. destruct K as (-> & _ & _). apply image_shape.
Qed.
Print Assumptions C49_store.
(** In particular nothing undefined happens. *)
Theorem C49_defined :
  forall al ops, allocates al ->
  forall replies h, client_run al ops [] = (replies, h) ->
  keeps_rules al [] (combine ops replies) -> ~ In YUndefined replies.
Proof.
  intros al ops HA replies h E HR.
  assert (L : length replies = length ops).
  { clear HR. revert replies h E. generalize (@nil block) as h0. induction ops as [|o ops IH]; intros h0 replies h E; cbn [client_run] in E.
    - injection E as <- <-. reflexivity.
    - destruct (client_step al o h0) as [r h1]. destruct (client_run al ops h1) as [l h2] eqn:E2. injection E as <- <-.
      cbn [length]. now rewrite (IH h1 l h2 E2). }
  destruct (C49_store al ops HA replies h E HR) as (s & H & _). clear E HR.
  revert H. generalize (@nil (N * bytes)) as s0. revert replies L. induction ops as [|o ops IH]; intros replies L s0 H.
  - destruct replies; [exact (fun x => x)|discriminate L].
  - destruct replies as [|r replies]; [discriminate L|]. cbn [combine] in H. inversion H as [|s1 o1 r1 s2 l1 s3 HO HQ HT]; subst.
    intros [K|K]; [|exact (IH replies ltac:(injection L; auto) _ HT K)]. subst r. clear - HQ.
    destruct o; cbn [required] in HQ.
    + destruct (n <? 0)%Z; [destruct HQ as [HQ _]; discriminate HQ|]. destruct HQ as [(p & HQ & _)|(HQ & _)]; discriminate HQ.
    + destruct HQ as [HQ _]; discriminate HQ.
    + destruct HQ as (d & _ & HQ & _). discriminate HQ.
    + destruct HQ as (a & b & c & _ & _ & _ & HQ & _). discriminate HQ.
    + destruct HQ as (a & b & c & _ & _ & _ & HQ & _). discriminate HQ.
    + destruct HQ as (d & _ & HQ). destruct (utf8_valid d); [|destruct HQ as [HQ _]; discriminate HQ].
      destruct (f d); [destruct HQ as [(p0 & HQ & _)|(HQ & _)]|destruct HQ as [(p0 & HQ & _)|(HQ & _)]|destruct HQ as [HQ _]]; discriminate HQ.
Qed.
Print Assumptions C49_defined.
(** And in memory: the two header fields of every live buffer are the length of its contents,
    the block is exactly header and contents, and loading the pointer recovers both. *)
Theorem C49_header :
  forall al ops, allocates al ->
  forall replies h, client_run al ops [] = (replies, h) ->
  keeps_rules al [] (combine ops replies) ->
  exists s, history al [] (combine ops replies) s /\
  forall p d, content p s = Some d ->
    let b := mkBuffer p (nlen d + 8) (nlen d + 8) in
    In (p, nlen d + 8) (shape h)
    /\ from_ptr p h = (Ok b, h)
    /\ buf_len b h = (Ok (nlen d), h) /\ buf_capacity b h = (Ok (nlen d), h) /\ buf_data b h = (Ok d, h).
Proof.
  intros al ops HA replies h E HR.
  destruct (client_run_ok al ops [] [] HA) as (s & H & K).
  - split; [reflexivity|]. split; [exact Logic.I|constructor].
  - rewrite E. exact HR.
  - rewrite E in H, K. cbn [fst snd] in H, K. exists s. split; [exact H|]. intros p d C. cbv zeta. pose proof K as (-> & HP & HF).
    split. { rewrite image_shape. apply in_map_iff. exists (p, d). split; [reflexivity|now apply content_in]. }
    split; [exact (from_ptr_live s p d K C)|].
    destruct (header_len s p d (whole p d) K C eq_refl ltac:(cbn [whole bf_len]; lia)) as [E1 E2].
    split; [exact E1|]. split; [exact E2|]. exact (data_live s p d K C).
Qed.
Print Assumptions C49_header.

(** A client that passes a message to a function and frees both buffers. *)
Definition bump (l : list (N * N)) (n : N) : option N :=
  let top := fold_right N.max 1024 (map (fun x => fst x + snd x) l) in
  if top + n <=? 4294967296 then Some top else None.
Lemma bump_allocates : allocates bump.
Proof.
  intros l n p _ _ H. unfold bump in H. destruct (_ <=? _) eqn:E in H; [|discriminate]. injection H as <-. split; [|unfold u32_max; lia].
  clear E. rewrite Forall_forall. intros x Hx. right. cbn [fst snd].
  induction l as [|y l IH]; [destruct Hx|]. cbn [map fold_right]. destruct Hx as [->|Hx]; [lia|]. specialize (IH Hx). lia.
Qed.
Definition shout : api_fn := fun bs => if nlen bs =? 2 then Ok (bs ++ bs) else Err (txt "no").
Definition bx_ops : list client_op :=
  [KAlloc 2; KWrite 1024 0 (txt "hi"); KCall shout 1024; KLength 1034; KRead 1034 0 5; KFree 1024; KRead 1034 1 4; KAlloc (-1)].
Example C49_satisfiable :
  allocates bump
  /\ fst (client_run bump bx_ops []) =
     [YPtr 1024; YDone; YPtr 1034; YNum 5; YBytes (1 :: txt "hihi"); YDone; YBytes (txt "hihi"); YTrap]
  /\ keeps_rules bump [] (combine bx_ops (fst (client_run bump bx_ops []))).
Proof.
  split; [exact bump_allocates|]. split; [vm_compute; reflexivity|].
  replace (fst (client_run bump bx_ops [])) with
    [YPtr 1024; YDone; YPtr 1034; YNum 5; YBytes (1 :: txt "hihi"); YDone; YBytes (txt "hihi"); YTrap] by (vm_compute; reflexivity).
  cbn [bx_ops combine keeps_rules proper required].
  split; [exact Logic.I|]. intros s1 H. cbn [Z.ltb Z.compare] in H. destruct H as [(p & E & _ & ->)|(E & _)]; [|discriminate E]. injection E as <-.
  split; [exists [0; 0]; split; [reflexivity|vm_compute; discriminate]|]. intros s1 (a & b & c & H1 & Ha & Hb & _ & ->).
  cbn [content] in H1. rewrite N.eqb_refl in H1. injection H1 as H1.
  destruct a; [|rewrite nlen_cons in Ha; lia]. cbn [app] in *.
  assert (c = []).
  { destruct b as [|x [|y b]]; try discriminate Hb. cbn [app] in H1. injection H1 as _ _ H1. destruct b; [cbn [app] in H1; now symmetry|discriminate H1]. }
  subst c. cbn [map fst]. change (1024 =? 1024) with true. cbv iota. change (txt "hi" ++ []) with (txt "hi").
  split; [discriminate|]. intros s1 (d & H & Q). cbn [content] in H. change (1024 =? 1024) with true in H. injection H as <-.
  change (utf8_valid (txt "hi")) with true in Q. cbv iota in Q. change (shout (txt "hi")) with (@Ok bytes bytes (txt "hihi")) in Q. cbv iota in Q.
  destruct Q as [(p & E & _ & ->)|(E & _)]; [|discriminate E]. injection E as <-.
  split; [discriminate|]. intros s1 (d & _ & _ & ->).
  split; [exists (1 :: txt "hihi"); split; [reflexivity|vm_compute; discriminate]|]. intros s1 (a0 & b0 & c0 & _ & _ & _ & _ & ->).
  split; [discriminate|]. intros s1 (_ & ->). cbn [filter fst negb].
  split; [exists (1 :: txt "hihi"); split; [reflexivity|vm_compute; discriminate]|]. intros s1 (a1 & b1 & c1 & _ & _ & _ & _ & ->).
  split; [exact Logic.I|]. intros s1 _. exact Logic.I.
Qed.
(** What breaks the rules is undefined: freeing twice, freeing what was not allocated, reading
    and writing beyond the memory. *)
Example C49_broken_rules :
  fst (client_run bump [KAlloc 2; KFree 1024; KFree 1024] []) = [YPtr 1024; YDone; YUndefined]
  /\ fst (client_run bump [KAlloc 16; KFree 1032] []) = [YPtr 1024; YUndefined]
  /\ fst (client_run bump [KAlloc 2; KWrite 1024 1 [7; 7]] []) = [YPtr 1024; YUndefined]
  /\ fst (client_run bump [KAlloc 2; KRead 1024 1 2] []) = [YPtr 1024; YUndefined].
Proof. vm_compute. repeat split. Qed.
