(** Proofs about the storage accessors of contracts. *)
From Coq Require Import List NArith ZArith Bool Lia.
From Coq Require Import ZifyBool ZifyNat ZifyN.
From Verif Require Import Base CodecModel CodecSpec LayoutModel LayoutSpec StorageModel StorageSpec GlobalModel GlobalSpec GlobalProofs.
From Verif Require Import RuntimeModel RuntimeSpec RuntimeProofs SdkModel SdkSpec SdkProofs AbiModel AbiSpec AbiProofs.
From Verif Require Import TypedModel TypedSpec.
Import ListNotations.
Open Scope list_scope.
Open Scope N_scope.

(* ------------------------------------------------------------------------------------ *)
(** * Sequencing *)

Lemma run_wbind {A B} e (t : wasm A) (k : A -> bytes -> wasm B) : forall f g,
  run_wasm e (wbind t k) f g =
  match run_wasm e t f g with
  | (Ok (mem, a, f'), g') => run_wasm e (k a mem) f' g'
  | (Err x, g') => (Err x, g')
  | (Panic, g') => (Panic, g')
  end.
Proof.
  induction t as [mem a|msg|mem c k' IH]; intros f g; [reflexivity|reflexivity|]. cbn [wbind run_wasm].
  destruct (host_call e f mem c g) as [[[[v mem'] f']|?|] g']; [apply IH|reflexivity|reflexivity].
Qed.
Definition ends {A} (e : env) (m : code A) (mem : bytes) (f : func_env) (g : gstate) (a : A) (mem' : bytes) (f' : func_env) (g' : gstate) : Prop :=
  run_wasm e (m mem) f g = (Ok (mem', a, f'), g').
Lemma ends_bind {A B} e (m : code A) (k : A -> code B) mem f g a mem1 f1 g1 b mem2 f2 g2 :
  ends e m mem f g a mem1 f1 g1 -> ends e (k a) mem1 f1 g1 b mem2 f2 g2 -> ends e (cbind m k) mem f g b mem2 f2 g2.
Proof. unfold ends, cbind. intros E1 E2. rewrite run_wbind, E1. exact E2. Qed.
Lemma ends_ret {A} e (a : A) mem f g : ends e (cret a) mem f g a mem f g.
Proof. reflexivity. Qed.
Lemma ends_host e c mem f g v mem' f' g' : host_call e f mem c g = (Ok (v, mem', f'), g') -> ends e (host c) mem f g v mem' f' g'.
Proof. unfold ends, host. intros E. cbn [run_wasm]. now rewrite E. Qed.
Lemma bind_ends {A B} e (m : code A) (k : A -> code B) mem f g a mem1 f1 g1 : ends e m mem f g a mem1 f1 g1 ->
  run_wasm e (cbind m k mem) f g = run_wasm e (k a mem1) f1 g1.
Proof. unfold ends, cbind. intros E. now rewrite run_wbind, E. Qed.

(* ------------------------------------------------------------------------------------ *)
(** * Values and their bytes *)

Lemma type_size_pos t : 0 < type_size t.
Proof. destruct t; reflexivity. Qed.
Lemma cell_bytes_length t p : of_type t p -> nlen (cell_bytes t p) = type_size t.
Proof.
  unfold nlen. destruct t, p; cbn [of_type]; intros H; try contradiction; cbn [cell_bytes type_size];
    try (rewrite le_bytes_length; reflexivity); try reflexivity. destruct H as [_ ->]. reflexivity.
Qed.
Lemma zero_of_type t : of_type t (zero_of t).
Proof.
  destruct t; cbn; try exact Logic.I; try (split; [reflexivity|]; unfold in_range; cbn; lia); try lia.
  split; [|reflexivity]. repeat constructor.
Qed.
Lemma zero_bytes t : cell_bytes t (zero_of t) = repeat 0 (N.to_nat (type_size t)).
Proof. destruct t; reflexivity. Qed.

(** Numbers: fields of up to 4 bytes, and of 8. *)
Definition narrow (t : prim_type) : bool := match t with TI8 | TU8 | TI16 | TU16 | TI32 | TU32 => true | _ => false end.
Definition wide (t : prim_type) : bool := match t with TI64 | TU64 => true | _ => false end.
Definition low (t : prim_type) (z : Z) : N := Z.to_N (z mod 2 ^ ity_bits (ity_of t)).
Lemma low_bound t z : narrow t = true \/ wide t = true -> low t z < 256 ^ type_size t.
Proof.
  intros H. unfold low. assert (0 < 2 ^ ity_bits (ity_of t))%Z by (destruct t; reflexivity).
  pose proof (Z.mod_pos_bound z (2 ^ ity_bits (ity_of t)) ltac:(lia)) as B.
  assert (E : Z.of_N (256 ^ type_size t) = (2 ^ ity_bits (ity_of t))%Z) by (destruct t; destruct H as [H|H]; try discriminate H; reflexivity).
  lia.
Qed.
Lemma low_value t z : narrow t = true \/ wide t = true ->
  le_value (le_bytes (N.to_nat (type_size t)) (low t z)) = low t z.
Proof. intros H. rewrite le_value_le_bytes, N2Nat.id. apply N.mod_small. now apply low_bound. Qed.
Lemma low_back t z : in_range (ity_of t) z -> as_ity (ity_of t) (Z.of_N (low t z)) = z.
Proof. exact (complement_back (ity_of t) z). Qed.
(** Cutting the 32 or 64 bits the setter passes to the size of the field. *)
Lemma cut t w z : (narrow t = true /\ w = U32) \/ (wide t = true /\ w = U64) ->
  le_bytes (N.to_nat (type_size t)) (Z.to_N (as_ity w z)) = le_bytes (N.to_nat (type_size t)) (low t z).
Proof.
  intros H. assert (M : forall n m, n mod 256 ^ type_size t = m mod 256 ^ type_size t ->
    le_bytes (N.to_nat (type_size t)) n = le_bytes (N.to_nat (type_size t)) m).
  { intros n m E. unfold le_bytes. f_equal. rewrite <- (be_bytes_mod _ n (type_size t)), <- (be_bytes_mod _ m (type_size t)) by lia. now rewrite E. }
  apply M. apply N2Z.inj. rewrite !N2Z.inj_mod.
  assert (E : Z.of_N (256 ^ type_size t) = (2 ^ ity_bits (ity_of t))%Z)
    by (destruct t; destruct H as [[H _]|[H _]]; try discriminate H; reflexivity).
  rewrite E. unfold low. assert (P0 : (0 < 2 ^ ity_bits (ity_of t))%Z) by (destruct t; reflexivity).
  rewrite (Z2N.id (z mod _)) by (apply Z.mod_pos_bound; exact P0). rewrite Z.mod_mod by lia.
  assert (Ew : as_ity w z = (z mod 2 ^ ity_bits w)%Z) by (destruct H as [[_ ->]|[_ ->]]; reflexivity).
  rewrite Ew, Z2N.id by (apply Z.mod_pos_bound; destruct H as [[_ ->]|[_ ->]]; reflexivity).
  assert (D : exists q, (2 ^ ity_bits w = q * 2 ^ ity_bits (ity_of t))%Z).
  { exists (2 ^ (ity_bits w - ity_bits (ity_of t)))%Z. destruct H as [[H ->]|[H ->]]; destruct t; try discriminate H; reflexivity. }
  destruct D as [q D]. rewrite D. symmetry. apply Znumtheory.Zmod_div_mod; [lia| |].
  - rewrite <- D. destruct H as [[_ ->]|[_ ->]]; reflexivity.
  - exists q. reflexivity.
Qed.

(* ------------------------------------------------------------------------------------ *)
(** * Variables *)

Lemma variable_inj fs i j f h k l : nth_error fs i = Some f -> nth_error fs j = Some h ->
  k < field_cells f -> l < field_cells h -> variable fs i k = variable fs j l -> i = j /\ k = l.
Proof.
  unfold variable. intros Ei Ej Lk Ll E. destruct (Nat.lt_trichotomy i j) as [L|[->|L]].
  - pose proof (proj1 (count_mono fs i j f L Ei)). lia.
  - split; [reflexivity|lia].
  - pose proof (proj1 (count_mono fs j i h L Ej)). lia.
Qed.
(** The variable the generated accessor reaches. *)
Lemma accessed_spec fs vs i f index : storage_vars fs = Some vs -> nth_error fs i = Some f -> index_ok f index ->
  exists v, nth_error vs i = Some v /\ var_prim v = field_prim f
    /\ accessed v index = option_map (variable fs i) (cell_of fs i index).
Proof.
  intros E Ei Hi. destruct (storage_vars_at fs 0 0 vs E) as [_ At]. specialize (At i f Ei). rewrite !N.add_0_l in At.
  eexists. split; [exact At|]. destruct (storage_vars_type f (count_cells (firstn i fs)) (count_bytes (firstn i fs))) as [Et _].
  split; [destruct f; reflexivity|]. unfold cell_of. rewrite Ei.
  destruct f as [t|t n], index as [k|]; cbn [index_ok] in Hi; try contradiction.
  - cbn. unfold variable. now rewrite N.add_0_r.
  - unfold accessed. rewrite Et. cbn [field_cells].
    pose proof (array_access fs vs _ k E (nth_error_In _ _ At) Hi) as A. rewrite Et in A. cbn [field_cells] in A. rewrite A.
    destruct (k <? n); reflexivity.
Qed.
Lemma cell_of_some fs i index k : cell_of fs i index = Some k -> exists f, nth_error fs i = Some f /\ k < field_cells f.
Proof.
  unfold cell_of. destruct (nth_error fs i) as [f|]; [|discriminate].
  intros E. exists f. split; [reflexivity|]. destruct (_ <? field_cells f) eqn:L; [|discriminate E]. apply Some_inj in E. lia.
Qed.
Lemma update_same st i k p : update st i k p i k = p.
Proof. unfold update. now rewrite Nat.eqb_refl, N.eqb_refl. Qed.
Lemma update_other st i k p j l : j <> i \/ l <> k -> update st i k p j l = st j l.
Proof.
  intros H. unfold update. destruct (Nat.eqb_spec j i) as [->|]; [|reflexivity]. destruct (N.eqb_spec l k) as [->|]; [|reflexivity].
  destruct H; contradiction.
Qed.

(* ------------------------------------------------------------------------------------ *)
(** * On the chain *)

Section Chain.
Variable e : env.
Hypothesis HI : iterates e.
Hypothesis HC : collision_free e.
Variable a : account.
Hypothesis Ha : array_wf 20 (ac_addr a).
Variable fs : list field_type.
Variable vs : list svar.
Hypothesis Hvs : storage_vars fs = Some vs.
Hypothesis Hl : from_byte_sizes 0 (cell_sizes fs) = Some (ac_layout a).

Lemma cell_nth i f k : nth_error fs i = Some f -> k < field_cells f ->
  nth_error (cell_sizes fs) (N.to_nat (variable fs i k)) = Some (type_size (field_prim f)).
Proof. intros Ei Lk. rewrite <- field_byte_count_size. exact (proj1 (cell_at fs i f k Ei Lk)). Qed.

Lemma read_cell g st i f k w : gs_reachable e g -> represents e a fs g st -> nth_error fs i = Some f -> k < field_cells f ->
  type_size (field_prim f) <= N.of_nat w ->
  get_var_array e a w (variable fs i k) g
  = (Ok (cell_bytes (field_prim f) (st i k) ++ repeat 0 (w - N.to_nat (type_size (field_prim f)))), g).
Proof.
  intros HR HS Ei Lk Lw. pose proof (reachable_typed e g HI HC HR) as HT.
  destruct (HS i f k Ei Lk) as [Ht Hv].
  destruct (declared_get 0 _ _ _ _ Hl (cell_nth i f k Ei Lk)) as (v & Hg & _ & Es & Ho).
  rewrite N.add_0_l, N2Nat.id in Hg. pose proof (type_size_pos (field_prim f)) as Zp.
  rewrite (get_var_vec_eq e a _ g v Ha HT Hg) in Hv by lia. cbn [fst] in Hv. injection Hv as Hv.
  unfold get_var_array. rewrite (get_var_eq e a _ _ g v Ha HT Hg) by (unfold nlen; rewrite ?repeat_length; lia).
  rewrite Hv. do 3 f_equal. rewrite Es.
  replace w with (N.to_nat (type_size (field_prim f)) + (w - N.to_nat (type_size (field_prim f))))%nat at 1 by lia.
  rewrite repeat_app, skipn_app, skipn_all2 by (rewrite repeat_length; lia).
  rewrite repeat_length, Nat.sub_diag. reflexivity.
Qed.

Lemma write_cell g st i f k p bs : gs_reachable e g -> represents e a fs g st -> nth_error fs i = Some f -> k < field_cells f ->
  of_type (field_prim f) p -> bytes_ok bs -> type_size (field_prim f) <= nlen bs ->
  firstn (N.to_nat (type_size (field_prim f))) bs = cell_bytes (field_prim f) p ->
  exists g', set_var_bytes e a (variable fs i k) bs g = (Ok tt, g') /\ gs_reachable e g'
    /\ represents e a fs g' (update st i k p)
    /\ (forall b id, array_wf 20 (ac_addr b) -> ac_addr b <> ac_addr a -> fst (get_var_vec e b id g') = fst (get_var_vec e b id g)).
Proof.
  intros HR HS Ei Lk Hp Hb Lb Hf.
  destruct (set_then_get e g a 0 _ _ _ bs HI HC HR Ha Hl (cell_nth i f k Ei Lk) (type_size_pos _) Lb Hb) as (g' & E & HR' & Eg).
  rewrite N.add_0_l, N2Nat.id in *. exists g'. split; [exact E|]. split; [exact HR'|].
  pose proof (set_isolated e g a 0 _ (N.to_nat (variable fs i k)) _ bs g' HI HC HR Ha Hl (cell_nth i f k Ei Lk) Hb) as Is.
  rewrite N.add_0_l, N2Nat.id in Is. destruct (Is E) as (Io & Ib & _).
  split; [|exact Ib]. intros j h l Ej Ll. destruct (Nat.eq_dec j i) as [->|Ne].
  - assert (h = f) by congruence. subst h. destruct (N.eq_dec l k) as [->|Nk].
    + rewrite update_same. split; [exact Hp|]. rewrite Eg. cbn [fst]. now rewrite Hf.
    + rewrite update_other by auto. destruct (HS i f l Ei Ll) as [Ht Hv]. split; [exact Ht|]. rewrite <- Hv.
      specialize (Io (N.to_nat (variable fs i l))). rewrite N.add_0_l, N2Nat.id in Io. apply Io.
      intros X. apply N2Nat.inj in X. destruct (variable_inj fs i i f f l k Ei Ei Ll Lk X). contradiction.
  - rewrite update_other by auto. destruct (HS j h l Ej Ll) as [Ht Hv]. split; [exact Ht|]. rewrite <- Hv.
    specialize (Io (N.to_nat (variable fs j l))). rewrite N.add_0_l, N2Nat.id in Io. apply Io.
    intros X. apply N2Nat.inj in X. destruct (variable_inj fs j i h f l k Ej Ei Ll Lk X). contradiction.
Qed.

(** The running contract, with room for [n] more addresses. *)
Record room (n : N) (mem : bytes) (f : func_env) : Prop := mkRoom {
  rm_account : fe_account f = a;
  rm_mode : fe_mode f = FullAccess;
  rm_memory : fe_memory f = true;
  rm_space : fe_used f + 20 * (n + 1) <= nlen mem;
  rm_bound : nlen mem < 2 ^ 32;
  rm_bytes : bytes_ok mem
}.
Lemma room_less n m mem f : room n mem f -> m <= n -> room m mem f.
Proof. intros [A B C D E' F] L. constructor; auto. lia. Qed.

Lemma host_get n mem f g st i fl k : room n mem f -> gs_reachable e g -> represents e a fs g st ->
  nth_error fs i = Some fl -> k < field_cells fl -> type_size (field_prim fl) <= 8 ->
  host_call e f mem (HGet64 (variable fs i k)) g = (Ok (le_value (cell_bytes (field_prim fl) (st i k)), mem, f), g)
  /\ host_call e f mem (HGet32 (variable fs i k)) g = (Ok (le_value (cell_bytes (field_prim fl) (st i k)) mod 2 ^ 32, mem, f), g).
Proof.
  intros [A B _ _ _ _] HR HS Ei Lk Ls.
  assert (G : get_var_i64 e (fe_account f) (variable fs i k) g = (Ok (le_value (cell_bytes (field_prim fl) (st i k))), g)).
  { unfold get_var_i64, gbind. rewrite A, (read_cell g st i fl k 8 HR HS Ei Lk) by lia. unfold gret. now rewrite le_value_pad. }
  split; cbn [host_call]; unfold sbind, sunwrap, sassert, can_read; rewrite B; unfold sret at 1; rewrite G; reflexivity.
Qed.
Lemma host_set n mem f g st i fl k p w v : room n mem f -> gs_reachable e g -> represents e a fs g st ->
  nth_error fs i = Some fl -> k < field_cells fl -> of_type (field_prim fl) p ->
  w = 4%nat \/ w = 8%nat -> type_size (field_prim fl) <= N.of_nat w ->
  le_bytes (N.to_nat (type_size (field_prim fl))) v = cell_bytes (field_prim fl) p ->
  exists g', host_call e f mem (if Nat.eqb w 4 then HSet32 (variable fs i k) v else HSet64 (variable fs i k) v) g = (Ok (0, mem, f), g')
    /\ gs_reachable e g' /\ represents e a fs g' (update st i k p)
    /\ (forall b id, array_wf 20 (ac_addr b) -> ac_addr b <> ac_addr a -> fst (get_var_vec e b id g') = fst (get_var_vec e b id g)).
Proof.
  intros [A B _ _ _ _] HR HS Ei Lk Hp Hw Lw Hv.
  destruct (write_cell g st i fl k p (le_bytes w v) HR HS Ei Lk Hp (le_bytes_ok w v)) as (g' & E & HR' & HS' & O).
  { unfold nlen. rewrite le_bytes_length. lia. }
  { rewrite firstn_le by lia. exact Hv. }
  exists g'. split; [|auto]. rewrite <- A in E.
  destruct Hw as [-> | ->]; cbn [Nat.eqb host_call]; unfold sbind, sunwrap, sassert, can_write; rewrite B; unfold sret at 1;
    unfold set_var_i32, set_var_i64; rewrite E; reflexivity.
Qed.

(** Allocation of an address. *)
Lemma alloc_ends n mem f g : room (n + 1) mem f ->
  ends e (sdk_alloc 20) mem f g (fe_used f + 20) mem (with_used (fe_used f + 20) f) g
  /\ room n mem (with_used (fe_used f + 20) f) /\ fe_used f + 20 + 20 <= nlen mem.
Proof.
  intros [A B C D E' F]. split; [|split; [constructor; cbn [with_used fe_account fe_mode fe_memory fe_used]; auto; lia|lia]].
  apply ends_host. cbn [host_call]. unfold sbind, sassert. rewrite C. change (0 <? 20) with true. cbn [andb].
  unfold sret at 1. replace (nlen mem <? fe_used f + 20) with false by lia. rewrite N.mod_small by lia. reflexivity.
Qed.
Lemma write_read (mem : bytes) p (bs : bytes) : p + nlen bs <= nlen mem -> bytes_ok mem -> bytes_ok bs ->
  exists mem', mem_write mem p bs = Some mem' /\ nlen mem' = nlen mem /\ bytes_ok mem' /\ mem_read mem' p (nlen bs) = Some bs.
Proof.
  intros L Hm Hb. unfold mem_write. replace (p + nlen bs <=? nlen mem) with true by lia. eexists. split; [reflexivity|].
  assert (Ln : nlen (firstn (N.to_nat p) mem ++ bs ++ skipn (N.to_nat (p + nlen bs)) mem) = nlen mem).
  { unfold nlen in *. rewrite !app_length, firstn_length, skipn_length. lia. }
  split; [exact Ln|]. split.
  - unfold bytes_ok in *. rewrite !Forall_app. split; [now apply firstn_ok|]. split; [auto|]. now apply skipn_ok.
  - unfold mem_read. rewrite Ln. replace (p + nlen bs <=? nlen mem) with true by lia. f_equal.
    unfold nlen in *. rewrite skipn_app, firstn_length. rewrite skipn_all2 by (rewrite firstn_length; lia).
    replace (N.to_nat p - Nat.min (N.to_nat p) (length mem))%nat with 0%nat by lia. cbn [skipn app].
    rewrite Nat2N.id, firstn_app, Nat.sub_diag, firstn_all. cbn [firstn]. apply app_nil_r.
Qed.
Lemma room_mem n mem mem' f : room n mem f -> nlen mem' = nlen mem -> bytes_ok mem' -> room n mem' f.
Proof. intros [A B C D E' F] L Hb. constructor; auto; rewrite L; auto. Qed.

(** The generated getter, and looking at what it gave. *)
Lemma getter_ends n mem f g st i fl k : room (n + 1) mem f -> gs_reachable e g -> represents e a fs g st ->
  nth_error fs i = Some fl -> k < field_cells fl ->
  exists x mem' f', ends e (getter (field_prim fl) (variable fs i k)) mem f g x mem' f' g
    /\ ends e (look x) mem' f' g (st i k) mem' f' g /\ room n mem' f'.
Proof.
  intros Rm HR HS Ei Lk. pose proof (HS i fl k Ei Lk) as [Ht _].
  pose proof (room_less (n + 1) n mem f Rm ltac:(lia)) as Rn.
  assert (Nw : narrow (field_prim fl) = true -> forall z, in_range (ity_of (field_prim fl)) z -> st i k = PInt (ity_of (field_prim fl)) z ->
     ends e (let~ v := get32 (variable fs i k) in cret (HInt (ity_of (field_prim fl)) (as_ity (ity_of (field_prim fl)) (Z.of_N v)))) mem f g
       (HInt (ity_of (field_prim fl)) z) mem f g).
  { intros Hn z Hz Es. eapply ends_bind.
    { apply ends_host. apply (proj2 (host_get (n + 1) mem f g st i fl k Rm HR HS Ei Lk ltac:(destruct (field_prim fl); try discriminate Hn; cbn; lia))). }
    rewrite Es. cbn [cell_bytes]. change (Z.to_N (z mod 2 ^ int_bits (ity_of (field_prim fl)))) with (low (field_prim fl) z).
    rewrite low_value by auto. rewrite N.mod_small.
    - rewrite low_back by exact Hz. apply ends_ret.
    - eapply N.lt_le_trans; [apply low_bound; auto|]. destruct (field_prim fl); try discriminate Hn; cbn; lia. }
  assert (Wd : wide (field_prim fl) = true -> forall z, in_range (ity_of (field_prim fl)) z -> st i k = PInt (ity_of (field_prim fl)) z ->
     ends e (let~ v := get64 (variable fs i k) in cret (HInt (ity_of (field_prim fl)) (as_ity (ity_of (field_prim fl)) (Z.of_N v)))) mem f g
       (HInt (ity_of (field_prim fl)) z) mem f g).
  { intros Hn z Hz Es. eapply ends_bind.
    { apply ends_host. apply (proj1 (host_get (n + 1) mem f g st i fl k Rm HR HS Ei Lk ltac:(destruct (field_prim fl); try discriminate Hn; cbn; lia))). }
    rewrite Es. cbn [cell_bytes]. change (Z.to_N (z mod 2 ^ int_bits (ity_of (field_prim fl)))) with (low (field_prim fl) z).
    rewrite low_value by auto. rewrite low_back by exact Hz. apply ends_ret. }
  destruct (field_prim fl) eqn:Ef; destruct (st i k) as [| | |addr|amt|ty z] eqn:Es; cbn [of_type] in Ht; try contradiction.
  all: try (destruct Ht as [-> Hz]; specialize (Nw eq_refl z Hz eq_refl) || specialize (Wd eq_refl z Hz eq_refl);
            eexists _, mem, f; split; [eassumption|split; [apply ends_ret|exact Rn]]).
  (* bool *)
  - exists (HBool b), mem, f. split; [|split; [apply ends_ret|exact Rn]].
    unfold getter, get_bool. eapply ends_bind; [|apply ends_ret]. eapply ends_bind.
    { apply ends_host. apply (proj2 (host_get (n + 1) mem f g st i fl k Rm HR HS Ei Lk ltac:(rewrite Ef; cbn; lia))). }
    rewrite Ef, Es. destruct b; apply ends_ret.
  (* amount *)
  - exists (HAmount amt), mem, f. split; [|split; [apply ends_ret|exact Rn]].
    unfold getter, get_amount. eapply ends_bind.
    { apply ends_host. apply (proj1 (host_get (n + 1) mem f g st i fl k Rm HR HS Ei Lk ltac:(rewrite Ef; cbn; lia))). }
    rewrite Ef, Es. cbn [cell_bytes]. rewrite le_value_le_bytes. rewrite N.mod_small by exact Ht. apply ends_ret.
  (* address *)
  - destruct (alloc_ends n mem f g Rm) as (Ea & Rm' & Sp). destruct Ht as [Hb Hln].
    assert (Nl : nlen addr = 20) by (unfold nlen; rewrite Hln; reflexivity).
    destruct (write_read mem (fe_used f + 20) addr) as (mem' & Ew & Lm & Hm & Er); [lia|apply Rm|auto|].
    exists (HPtr (fe_used f + 20)), mem', (with_used (fe_used f + 20) f).
    split; [|split; [|eapply room_mem; eauto]].
    + unfold getter, get_addr. eapply ends_bind; [|apply ends_ret]. eapply ends_bind; [exact Ea|]. eapply ends_bind; [|apply ends_ret].
      apply ends_host. cbn [host_call]. unfold sbind, sassert, ssome, sunwrap, can_read. cbn [with_used fe_mode fe_memory fe_account].
      rewrite (rm_mode _ _ _ Rm), (rm_memory _ _ _ Rm), (rm_account _ _ _ Rm). cbn [andb]. unfold sret at 1.
      unfold mem_read. replace (fe_used f + 20 + 20 <=? nlen mem) with true by lia. unfold sret at 1.
      rewrite (read_cell g st i fl k 20 HR HS Ei Lk) by (rewrite Ef; cbn; lia). rewrite Ef, Es. cbn [cell_bytes type_size].
      change (20 - N.to_nat 20)%nat with 0%nat. cbn [repeat]. rewrite app_nil_r, Ew. reflexivity.
    + unfold look. unfold ends, cbind, mread. rewrite Nl in Er. rewrite Er. reflexivity.
Qed.

(** Making a value and passing it to the generated setter. *)
Lemma setter_ends n mem f g st i fl k p : room (n + 1) mem f -> gs_reachable e g -> represents e a fs g st ->
  nth_error fs i = Some fl -> k < field_cells fl -> of_type (field_prim fl) p ->
  exists x mem' f' r g', ends e (make p) mem f g x mem' f' g
    /\ ends e (setter (field_prim fl) (variable fs i k) x) mem' f' g r mem' f' g'
    /\ room n mem' f' /\ gs_reachable e g' /\ represents e a fs g' (update st i k p)
    /\ (forall b id, array_wf 20 (ac_addr b) -> ac_addr b <> ac_addr a -> fst (get_var_vec e b id g') = fst (get_var_vec e b id g)).
Proof.
  intros Rm HR HS Ei Lk Ht. pose proof (room_less (n + 1) n mem f Rm ltac:(lia)) as Rn.
  assert (Nw : narrow (field_prim fl) = true -> forall z, p = PInt (ity_of (field_prim fl)) z ->
    exists g', host_call e f mem (HSet32 (variable fs i k) (Z.to_N (as_ity U32 z))) g = (Ok (0, mem, f), g')
      /\ gs_reachable e g' /\ represents e a fs g' (update st i k p)
      /\ (forall b id, array_wf 20 (ac_addr b) -> ac_addr b <> ac_addr a -> fst (get_var_vec e b id g') = fst (get_var_vec e b id g))).
  { intros Hn z Ep. refine (host_set _ mem f g st i fl k p 4 (Z.to_N (as_ity U32 z)) Rm HR HS Ei Lk Ht (or_introl eq_refl) _ _).
    - destruct (field_prim fl); try discriminate Hn; cbn; lia.
    - rewrite (cut (field_prim fl) U32 z) by auto. rewrite Ep. reflexivity. }
  assert (Wd : wide (field_prim fl) = true -> forall z, p = PInt (ity_of (field_prim fl)) z ->
    exists g', host_call e f mem (HSet64 (variable fs i k) (Z.to_N (as_ity U64 z))) g = (Ok (0, mem, f), g')
      /\ gs_reachable e g' /\ represents e a fs g' (update st i k p)
      /\ (forall b id, array_wf 20 (ac_addr b) -> ac_addr b <> ac_addr a -> fst (get_var_vec e b id g') = fst (get_var_vec e b id g))).
  { intros Hn z Ep. refine (host_set _ mem f g st i fl k p 8 (Z.to_N (as_ity U64 z)) Rm HR HS Ei Lk Ht (or_intror eq_refl) _ _).
    - destruct (field_prim fl); try discriminate Hn; cbn; lia.
    - rewrite (cut (field_prim fl) U64 z) by auto. rewrite Ep. reflexivity. }
  destruct (field_prim fl) eqn:Ef; destruct p as [| | |addr|amt|ty z] eqn:Ep; cbn [of_type] in Ht; try contradiction.
  all: try (destruct Ht as [-> Hz]; specialize (Nw eq_refl z eq_refl) || specialize (Wd eq_refl z eq_refl);
            match goal with H : exists _, _ |- _ => destruct H as (g' & E & Rest) end;
            eexists _, mem, f, 0, g'; split; [apply ends_ret|split; [apply ends_host; exact E|split; [exact Rn|exact Rest]]]).
  (* bool *)
  - destruct (host_set (n + 1) mem f g st i fl k p 4 (if b then 1 else 0) Rm HR HS Ei Lk) as (g' & E & Rest).
    { rewrite Ef, Ep. exact Logic.I. }
    { auto. }
    { rewrite Ef. cbn; lia. }
    { rewrite Ef, Ep. destruct b; reflexivity. }
    subst p. exists (HBool b), mem, f, 0, g'. split; [apply ends_ret|]. split; [apply ends_host; exact E|]. split; [exact Rn|exact Rest].
  (* amount *)
  - destruct (host_set (n + 1) mem f g st i fl k p 8 amt Rm HR HS Ei Lk) as (g' & E & Rest).
    { rewrite Ef, Ep. exact Ht. }
    { auto. }
    { rewrite Ef. cbn; lia. }
    { rewrite Ef, Ep. reflexivity. }
    subst p. exists (HAmount amt), mem, f, 0, g'. split; [apply ends_ret|]. split; [apply ends_host; exact E|]. split; [exact Rn|exact Rest].
  (* address *)
  - destruct (alloc_ends n mem f g Rm) as (Ea & Rm' & Sp). destruct Ht as [Hb Hln].
    assert (Nl : nlen addr = 20) by (unfold nlen; rewrite Hln; reflexivity).
    destruct (write_read mem (fe_used f + 20) addr) as (mem' & Ew & Lm & Hm & Er); [lia|apply Rm|auto|].
    destruct (write_cell g st i fl k p addr HR HS Ei Lk) as (g' & E & HR' & HS' & O).
    { rewrite Ef, Ep. now split. }
    { auto. }
    { rewrite Ef, Nl. cbn; lia. }
    { rewrite Ef, Ep. cbn [cell_bytes type_size]. apply firstn_all2. rewrite Hln. cbn; lia. }
    subst p. exists (HPtr (fe_used f + 20)), mem', (with_used (fe_used f + 20) f), 0, g'.
    split; [|split; [|split; [eapply room_mem; eauto|auto]]].
    + unfold make. eapply ends_bind; [exact Ea|]. eapply ends_bind; [|apply ends_ret].
      unfold ends, mwrite. rewrite Ew. reflexivity.
    + apply ends_host. cbn [host_call]. unfold sbind, sassert, ssome, sunwrap, can_write. cbn [with_used fe_mode fe_memory fe_account].
      rewrite (rm_mode _ _ _ Rm), (rm_memory _ _ _ Rm), (rm_account _ _ _ Rm). unfold sret at 1. rewrite Nl in Er. rewrite Er. unfold sret at 1 2. rewrite E. reflexivity.
Qed.

Lemma contract_runs l : forall mem f g st, room (nlen l) mem f -> gs_reachable e g -> represents e a fs g st ->
  Forall (access_ok fs) l ->
  exists g' f', gs_reachable e g' /\ represents e a fs g' (snd (typed_run fs st l))
    /\ (forall b id, array_wf 20 (ac_addr b) -> ac_addr b <> ac_addr a -> fst (get_var_vec e b id g') = fst (get_var_vec e b id g))
    /\ match fst (typed_run fs st l) with
       | Some rs => exists mem', run_wasm e (contract vs l mem) f g = (Ok (mem', rs, f'), g')
       | None => run_wasm e (contract vs l mem) f g = (Err ([], f'), g')
       end.
Proof.
  induction l as [|o l IH]; intros mem f g st Rm HR HS Hok.
  - exists g, f. cbn [typed_run fst snd]. repeat split; auto; try apply (HS i _ _ H H0). exists mem. reflexivity.
  - apply Forall_cons_iff in Hok. destruct Hok as [Ho Hok]. rewrite nlen_cons in Rm.
    replace (1 + nlen l) with (nlen l + 1) in Rm by lia.
    destruct o as [i index|i index p].
    + destruct Ho as (fl & Ei & Hi). destruct (accessed_spec fs vs i fl index Hvs Ei Hi) as (v & Ev & Et & Ea).
      cbn [typed_run contract]. destruct (cell_of fs i index) as [k|] eqn:Ek; cbn [option_map] in Ea.
      * destruct (cell_of_some _ _ _ _ Ek) as (fl' & Ei' & Lk). assert (fl' = fl) by congruence. subst fl'.
        destruct (getter_ends (nlen l) mem f g st i fl k Rm HR HS Ei Lk) as (x & mem1 & f1 & E1 & E2 & R1).
        assert (Er : ends e (run_access vs (Get i index)) mem f g (Read (st i k)) mem1 f1 g).
        { cbn [run_access]. rewrite Ev. eapply ends_bind; [apply ends_ret|]. eapply ends_bind.
          { unfold get_field. rewrite Ea. eapply ends_bind; [apply ends_ret|]. rewrite Et. exact E1. }
          eapply ends_bind; [exact E2|apply ends_ret]. }
        destruct (IH mem1 f1 g st R1 HR HS Hok) as (g' & f' & HR' & HS' & O & M).
        destruct (typed_run fs st l) as [rs st']. cbn [fst snd] in *. exists g', f'. split; [auto|]. split; [auto|]. split; [auto|].
        rewrite (bind_ends _ _ _ _ _ _ _ _ _ _ Er). destruct rs as [rs|]; cbn [option_map].
        -- destruct M as [mem' M]. exists mem'. rewrite (bind_ends _ _ _ _ _ _ _ _ _ _ M). reflexivity.
        -- unfold cbind at 1. rewrite run_wbind, M. reflexivity.
      * exists g, f. cbn [fst snd]. repeat split; auto; try apply (HS i0 _ _ H H0).
        unfold cbind at 1. rewrite run_wbind.
        assert (Er : run_wasm e (run_access vs (Get i index) mem) f g = (Err ([], f), g)).
        { cbn [run_access]. rewrite Ev. rewrite (bind_ends e (csome (Some v)) _ mem f g _ _ _ _ (ends_ret _ _ _ _ _)).
          unfold get_field. rewrite Ea. reflexivity. }
        rewrite Er. reflexivity.
    + destruct Ho as (fl & Ei & Hi & Hp). destruct (accessed_spec fs vs i fl index Hvs Ei Hi) as (v & Ev & Et & Ea).
      cbn [typed_run contract]. destruct (cell_of fs i index) as [k|] eqn:Ek; cbn [option_map] in Ea.
      * destruct (cell_of_some _ _ _ _ Ek) as (fl' & Ei' & Lk). assert (fl' = fl) by congruence. subst fl'.
        destruct (setter_ends (nlen l) mem f g st i fl k p Rm HR HS Ei Lk Hp) as (x & mem1 & f1 & r & g1 & E1 & E2 & R1 & HR1 & HS1 & O1).
        assert (Er : ends e (run_access vs (Set_ i index p)) mem f g Written mem1 f1 g1).
        { cbn [run_access]. rewrite Ev. eapply ends_bind; [apply ends_ret|]. eapply ends_bind; [exact E1|]. eapply ends_bind; [|apply ends_ret].
          unfold set_field. rewrite Ea. eapply ends_bind; [apply ends_ret|]. rewrite Et. exact E2. }
        destruct (IH mem1 f1 g1 _ R1 HR1 HS1 Hok) as (g' & f' & HR' & HS' & O & M).
        destruct (typed_run fs (update st i k p) l) as [rs st']. cbn [fst snd] in *. exists g', f'. split; [auto|]. split; [auto|].
        split; [intros b id Hb Nb; rewrite O, O1; auto|].
        rewrite (bind_ends _ _ _ _ _ _ _ _ _ _ Er). destruct rs as [rs|]; cbn [option_map].
        -- destruct M as [mem' M]. exists mem'. rewrite (bind_ends _ _ _ _ _ _ _ _ _ _ M). reflexivity.
        -- unfold cbind at 1. rewrite run_wbind, M. reflexivity.
      * (* the value is made before the index is looked at *)
        assert (exists x mem1 f1, ends e (make p) mem f g x mem1 f1 g) as (x & mem1 & f1 & E1).
        { destruct p as [| | |addr|amt|ty z]; try (destruct (field_prim fl); contradiction Hp); cbn [make]; try (eexists _, _, _; apply ends_ret).
          destruct (alloc_ends (nlen l) mem f g Rm) as (Ea' & Rm' & Sp).
          assert (Hb : bytes_ok addr /\ length addr = 20%nat) by (destruct (field_prim fl); try contradiction Hp; exact Hp).
          destruct Hb as [Hb Hln]. assert (Nl : nlen addr = 20) by (unfold nlen; rewrite Hln; reflexivity).
          destruct (write_read mem (fe_used f + 20) addr) as (mem' & Ew & Lm & Hm & _); [lia|apply Rm|auto|].
          eexists _, _, _. eapply ends_bind; [exact Ea'|]. eapply ends_bind; [|apply ends_ret]. unfold ends, mwrite. rewrite Ew. reflexivity. }
        exists g, f1. cbn [fst snd]. repeat split; auto; try apply (HS i0 _ _ H H0).
        unfold cbind at 1. rewrite run_wbind.
        assert (Er : run_wasm e (run_access vs (Set_ i index p) mem) f g = (Err ([], f1), g)).
        { cbn [run_access]. rewrite Ev. rewrite (bind_ends e (csome (Some v)) _ mem f g _ _ _ _ (ends_ret _ _ _ _ _)).
          rewrite (bind_ends _ _ _ _ _ _ _ _ _ _ E1). unfold set_field. rewrite Ea. reflexivity. }
        rewrite Er. reflexivity.
Qed.
End Chain.

(** An account whose storage was never written holds zeros. *)
Lemma fresh_zero e a fs g : iterates e -> collision_free e -> array_wf 20 (ac_addr a) -> gs_reachable e g ->
  from_byte_sizes 0 (cell_sizes fs) = Some (ac_layout a) ->
  (forall n, fst (gs_get e (key_segment (ac_addr a) n) None g) = Ok None) ->
  represents e a fs g (zero_store fs).
Proof.
  intros HI HC Ha HR Hl Hf i f k Ei Lk. unfold zero_store. rewrite Ei. split; [apply zero_of_type|].
  pose proof (reachable_typed e g HI HC HR) as HT.
  destruct (declared_get 0 _ _ _ _ Hl (cell_nth fs i f k Ei Lk)) as (v & Hg & _ & Es & Ho).
  rewrite N.add_0_l, N2Nat.id in Hg. pose proof (type_size_pos (field_prim f)) as Zp.
  rewrite (get_var_vec_eq e a _ g v Ha HT Hg) by lia. cbn [fst]. f_equal. rewrite zero_bytes, Es.
  assert (Z : forall x, byte_at e g (ac_addr a) x = 0).
  { intros x. unfold byte_at, seg. specialize (Hf (x / 32)). rewrite gs_get_now in Hf. cbn [fst] in Hf. injection Hf as ->.
    unfold zero_segment. apply nth_repeat. }
  rewrite (map_ext _ (fun _ => 0)) by exact Z. unfold range. rewrite map_map.
  generalize (N.to_nat (type_size (field_prim f))) as n. intros n. generalize 0%nat as b. induction n as [|n IH]; intros b; [reflexivity|].
  cbn [seq map repeat]. now rewrite IH.
Qed.

(* ------------------------------------------------------------------------------------ *)
(** * On the mock *)

Lemma mock_wbind {A B} (t : wasm A) (k : A -> bytes -> wasm B) : forall m,
  run_mock (wbind t k) m =
  match run_mock t m with
  | (Ok (mem, a), m') => run_mock (k a mem) m'
  | (Err x, m') => (Err x, m')
  | (Panic, m') => (Panic, m')
  end.
Proof.
  induction t as [mem a|msg|mem c k' IH]; intros m; [reflexivity|reflexivity|]. cbn [wbind run_mock].
  destruct (mock_call m mem c) as [[[v mem'] m']|]; [apply IH|reflexivity].
Qed.
Definition gives {A} (c : code A) (mem : bytes) (m : mock) (a : A) (mem' : bytes) (m' : mock) : Prop :=
  run_mock (c mem) m = (Ok (mem', a), m').
Lemma gives_bind {A B} (c : code A) (k : A -> code B) mem m a mem1 m1 b mem2 m2 :
  gives c mem m a mem1 m1 -> gives (k a) mem1 m1 b mem2 m2 -> gives (cbind c k) mem m b mem2 m2.
Proof. unfold gives, cbind. intros E1 E2. rewrite mock_wbind, E1. exact E2. Qed.
Lemma bind_gives {A B} (c : code A) (k : A -> code B) mem m a mem1 m1 : gives c mem m a mem1 m1 ->
  run_mock (cbind c k mem) m = run_mock (k a mem1) m1.
Proof. unfold gives, cbind. intros E. now rewrite mock_wbind, E. Qed.
Lemma gives_ret {A} (a : A) mem m : gives (cret a) mem m a mem m.
Proof. reflexivity. Qed.
Lemma gives_host c mem m v mem' m' : mock_call m mem c = Some (v, mem', m') -> gives (host c) mem m v mem' m'.
Proof. unfold gives, host. intros E. cbn [run_mock]. now rewrite E. Qed.

(** What the mock keeps for a value. *)
Definition mock_of (t : prim_type) (p : primitive) : mock_var :=
  match p with
  | PBool b => MI32 (if b then 1 else 0)
  | PAmount n => MI64 n
  | PAddress a => MBlob a
  | PInt _ z => if narrow t then MI32 (Z.to_N (as_ity U32 z)) else MI64 (Z.to_N (as_ity U64 z))
  | _ => MBlob []
  end.
Definition mocks (fs : list field_type) (m : mock) (st : store) : Prop :=
  forall i f k, nth_error fs i = Some f -> k < field_cells f ->
  of_type (field_prim f) (st i k) /\
  match mock_find m (variable fs i k) with
  | None => st i k = zero_of (field_prim f)
  | Some v => v = mock_of (field_prim f) (st i k)
  end.
Lemma mocks_update fs m st i f k p : mocks fs m st -> nth_error fs i = Some f -> k < field_cells f -> of_type (field_prim f) p ->
  mocks fs ((variable fs i k, mock_of (field_prim f) p) :: m) (update st i k p).
Proof.
  intros HM Ei Lk Hp j h l Ej Ll. cbn [mock_find]. destruct (N.eqb_spec (variable fs i k) (variable fs j l)) as [E|Ne].
  - destruct (variable_inj fs i j f h k l Ei Ej Lk Ll E) as [-> ->]. assert (h = f) by congruence. subst h.
    rewrite update_same. auto.
  - rewrite update_other; [exact (HM j h l Ej Ll)|]. destruct (Nat.eq_dec j i) as [->|]; [|auto].
    destruct (N.eq_dec l k) as [->|]; [contradiction|auto].
Qed.
Lemma back32 t z : narrow t = true -> in_range (ity_of t) z -> as_ity (ity_of t) (Z.of_N (Z.to_N (as_ity U32 z))) = z.
Proof.
  intros Hn Hz. rewrite Z2N.id by (pose proof (as_ity_range U32 z) as R; tables; cbn [ity_signed] in R; lia).
  apply (in_range_unique (ity_of t)); [apply as_ity_range|exact Hz|]. rewrite as_ity_mod.
  assert (Ew : as_ity U32 z = (z mod 2 ^ 32)%Z) by reflexivity. rewrite Ew. symmetry. apply Znumtheory.Zmod_div_mod;
    [destruct t; try discriminate Hn; reflexivity|reflexivity|].
  exists (2 ^ (32 - ity_bits (ity_of t)))%Z. destruct t; try discriminate Hn; reflexivity.
Qed.
Lemma back64 t z : wide t = true -> in_range (ity_of t) z -> as_ity (ity_of t) (Z.of_N (Z.to_N (as_ity U64 z))) = z.
Proof.
  intros Hn Hz. rewrite Z2N.id by (pose proof (as_ity_range U64 z) as R; tables; cbn [ity_signed] in R; lia).
  rewrite as_ity_again by (destruct t; try discriminate Hn; reflexivity). now apply as_ity_id.
Qed.
Lemma mock_alloc mem m : bytes_ok mem -> gives (sdk_alloc 20) mem m (nlen mem) (mem ++ repeat 0 20) m
  /\ nlen (mem ++ repeat 0 20) = nlen mem + 20 /\ bytes_ok (mem ++ repeat 0 20).
Proof.
  intros Hm. split; [reflexivity|]. split; [rewrite nlen_app; reflexivity|]. apply Forall_app. split; [exact Hm|repeat constructor].
Qed.

Lemma mock_getter fs m st i fl k mem : mocks fs m st -> nth_error fs i = Some fl -> k < field_cells fl -> bytes_ok mem ->
  exists x mem', gives (getter (field_prim fl) (variable fs i k)) mem m x mem' m /\ gives (look x) mem' m (st i k) mem' m /\ bytes_ok mem'.
Proof.
  intros HM Ei Lk Hm. destruct (HM i fl k Ei Lk) as [Ht Hv].
  assert (C32 : forall n, mock_find m (variable fs i k) = Some (MI32 n) \/ (mock_find m (variable fs i k) = None /\ n = 0) ->
    gives (get32 (variable fs i k)) mem m n mem m).
  { intros n [E|[E ->]]; apply gives_host; cbn [mock_call]; rewrite E; reflexivity. }
  assert (C64 : forall n, mock_find m (variable fs i k) = Some (MI64 n) \/ (mock_find m (variable fs i k) = None /\ n = 0) ->
    gives (get64 (variable fs i k)) mem m n mem m).
  { intros n [E|[E ->]]; apply gives_host; cbn [mock_call]; rewrite E; reflexivity. }
  assert (Nw : narrow (field_prim fl) = true -> forall z, in_range (ity_of (field_prim fl)) z -> st i k = PInt (ity_of (field_prim fl)) z ->
     gives (let~ v := get32 (variable fs i k) in cret (HInt (ity_of (field_prim fl)) (as_ity (ity_of (field_prim fl)) (Z.of_N v)))) mem m
       (HInt (ity_of (field_prim fl)) z) mem m).
  { intros Hn z Hz Es. eapply gives_bind; [apply (C32 (Z.to_N (as_ity U32 z)))|].
    - rewrite Es in Hv. destruct (mock_find m (variable fs i k)) as [v|].
      + left. cbn [mock_of] in Hv. rewrite Hn in Hv. now subst v.
      + right. split; [reflexivity|]. replace z with 0%Z; [reflexivity|]. destruct (field_prim fl); try discriminate Hn; now injection Hv.
    - rewrite back32 by auto. apply gives_ret. }
  assert (Wd : wide (field_prim fl) = true -> forall z, in_range (ity_of (field_prim fl)) z -> st i k = PInt (ity_of (field_prim fl)) z ->
     gives (let~ v := get64 (variable fs i k) in cret (HInt (ity_of (field_prim fl)) (as_ity (ity_of (field_prim fl)) (Z.of_N v)))) mem m
       (HInt (ity_of (field_prim fl)) z) mem m).
  { intros Hn z Hz Es. eapply gives_bind; [apply (C64 (Z.to_N (as_ity U64 z)))|].
    - rewrite Es in Hv. destruct (mock_find m (variable fs i k)) as [v|].
      + left. cbn [mock_of] in Hv. replace (narrow (field_prim fl)) with false in Hv by (destruct (field_prim fl); try discriminate Hn; reflexivity). now subst v.
      + right. split; [reflexivity|]. replace z with 0%Z; [reflexivity|]. destruct (field_prim fl); try discriminate Hn; now injection Hv.
    - rewrite back64 by auto. apply gives_ret. }
  destruct (field_prim fl) eqn:Ef; destruct (st i k) as [| | |addr|amt|ty z] eqn:Es; cbn [of_type] in Ht; try contradiction.
  4, 5, 6, 7, 8, 9: destruct Ht as [-> Hz]; specialize (Nw eq_refl z Hz eq_refl); eexists _, mem; split; [exact Nw|split; [apply gives_ret|exact Hm]].
  4, 5: destruct Ht as [-> Hz]; specialize (Wd eq_refl z Hz eq_refl); eexists _, mem; split; [exact Wd|split; [apply gives_ret|exact Hm]].
  - exists (HBool b), mem. split; [|split; [apply gives_ret|exact Hm]].
    unfold getter, get_bool. eapply gives_bind; [|apply gives_ret]. eapply gives_bind; [apply (C32 (if b then 1 else 0))|].
    + destruct (mock_find m (variable fs i k)) as [v|]; [left; now subst v|]. right. split; [reflexivity|]. now injection Hv as ->.
    + destruct b; apply gives_ret.
  - exists (HAmount amt), mem. split; [|split; [apply gives_ret|exact Hm]].
    unfold getter, get_amount. eapply gives_bind; [apply (C64 amt)|apply gives_ret].
    destruct (mock_find m (variable fs i k)) as [v|]; [left; now subst v|]. right. split; [reflexivity|]. now injection Hv as ->.
  - destruct (mock_alloc mem m Hm) as (Ea & Ln & Hm1). destruct Ht as [Hb Hln].
    assert (Nl : nlen addr = 20) by (unfold nlen; rewrite Hln; reflexivity).
    destruct (write_read (mem ++ repeat 0 20) (nlen mem) addr) as (mem' & Ew & Lm & Hm' & Er); [lia|auto|auto|].
    exists (HPtr (nlen mem)), mem'. split; [|split; [|exact Hm']].
    + unfold getter, get_addr. eapply gives_bind; [|apply gives_ret]. eapply gives_bind; [exact Ea|]. eapply gives_bind; [|apply gives_ret].
      apply gives_host. cbn [mock_call]. destruct (mock_find m (variable fs i k)) as [v|].
      * subst v. cbn [mock_of]. rewrite Ew. reflexivity.
      * change (zero_of TAddress) with (PAddress (repeat 0 20)) in Hv. assert (addr = repeat 0 20) by congruence. subst addr. rewrite Ew. reflexivity.
    + unfold look. unfold gives, cbind, mread. rewrite Nl in Er. rewrite Er. reflexivity.
Qed.
Lemma mock_setter fs m st i fl k p mem : mocks fs m st -> nth_error fs i = Some fl -> k < field_cells fl ->
  of_type (field_prim fl) p -> bytes_ok mem ->
  exists x mem' r m', gives (make p) mem m x mem' m /\ gives (setter (field_prim fl) (variable fs i k) x) mem' m r mem' m'
    /\ bytes_ok mem' /\ mocks fs m' (update st i k p).
Proof.
  intros HM Ei Lk Ht Hm. pose proof (mocks_update fs m st i fl k p HM Ei Lk Ht) as HU.
  destruct (field_prim fl) eqn:Ef; destruct p as [| | |addr|amt|ty z] eqn:Ep; cbn [of_type] in Ht; try contradiction.
  4, 5, 6, 7, 8, 9, 10, 11: destruct Ht as [-> Hz]; eexists _, mem, 0, _; split; [apply gives_ret|split; [apply gives_host; reflexivity|split; [exact Hm|exact HU]]].
  - exists (HBool b), mem, 0. eexists. split; [apply gives_ret|split; [apply gives_host; reflexivity|split; [exact Hm|exact HU]]].
  - exists (HAmount amt), mem, 0. eexists. split; [apply gives_ret|split; [apply gives_host; reflexivity|split; [exact Hm|exact HU]]].
  - destruct (mock_alloc mem m Hm) as (Ea & Ln & Hm1). destruct Ht as [Hb Hln].
    assert (Nl : nlen addr = 20) by (unfold nlen; rewrite Hln; reflexivity).
    destruct (write_read (mem ++ repeat 0 20) (nlen mem) addr) as (mem' & Ew & Lm & Hm' & Er); [lia|auto|auto|].
    exists (HPtr (nlen mem)), mem', 0. eexists. split; [|split; [|split; [exact Hm'|exact HU]]].
    + unfold make. eapply gives_bind; [exact Ea|]. eapply gives_bind; [|apply gives_ret]. unfold gives, mwrite. rewrite Ew. reflexivity.
    + apply gives_host. cbn [mock_call]. rewrite Nl in Er. rewrite Er. reflexivity.
Qed.
Lemma make_gives t p mem m : of_type t p -> bytes_ok mem -> exists x mem', gives (make p) mem m x mem' m.
Proof.
  intros Hp Hm. destruct p as [| | |addr|amt|ty z]; try (destruct t; contradiction Hp); cbn [make]; try (eexists _, _; apply gives_ret).
  destruct (mock_alloc mem m Hm) as (Ea & Ln & Hm1).
  assert (Hb : bytes_ok addr /\ length addr = 20%nat) by (destruct t; try contradiction Hp; exact Hp).
  destruct Hb as [Hb Hln]. assert (Nl : nlen addr = 20) by (unfold nlen; rewrite Hln; reflexivity).
  destruct (write_read (mem ++ repeat 0 20) (nlen mem) addr) as (mem' & Ew & _); [lia|auto|auto|].
  eexists _, _. eapply gives_bind; [exact Ea|]. eapply gives_bind; [|apply gives_ret]. unfold gives, mwrite. rewrite Ew. reflexivity.
Qed.
Lemma contract_mock fs vs l : storage_vars fs = Some vs -> forall mem m st, mocks fs m st -> bytes_ok mem -> Forall (access_ok fs) l ->
  exists m', mocks fs m' (snd (typed_run fs st l)) /\
  match fst (typed_run fs st l) with
  | Some rs => exists mem', run_mock (contract vs l mem) m = (Ok (mem', rs), m')
  | None => run_mock (contract vs l mem) m = (Err tt, m')
  end.
Proof.
  intros Hvs. induction l as [|o l IH]; intros mem m st HM Hm Hok.
  - exists m. split; [exact HM|]. exists mem. reflexivity.
  - apply Forall_cons_iff in Hok. destruct Hok as [Ho Hok]. destruct o as [i index|i index p].
    + destruct Ho as (fl & Ei & Hi). destruct (accessed_spec fs vs i fl index Hvs Ei Hi) as (v & Ev & Et & Ea).
      cbn [typed_run contract]. destruct (cell_of fs i index) as [k|] eqn:Ek; cbn [option_map] in Ea.
      * destruct (cell_of_some _ _ _ _ Ek) as (fl' & Ei' & Lk). assert (fl' = fl) by congruence. subst fl'.
        destruct (mock_getter fs m st i fl k mem HM Ei Lk Hm) as (x & mem1 & E1 & E2 & Hm1).
        assert (Er : gives (run_access vs (Get i index)) mem m (Read (st i k)) mem1 m).
        { cbn [run_access]. rewrite Ev. eapply gives_bind; [apply gives_ret|]. eapply gives_bind.
          { unfold get_field. rewrite Ea. eapply gives_bind; [apply gives_ret|]. rewrite Et. exact E1. }
          eapply gives_bind; [exact E2|apply gives_ret]. }
        destruct (IH mem1 m st HM Hm1 Hok) as (m' & HM' & M).
        destruct (typed_run fs st l) as [rs st']. cbn [fst snd] in *. exists m'. split; [auto|].
        rewrite (bind_gives _ _ _ _ _ _ _ Er). destruct rs as [rs|]; cbn [option_map].
        -- destruct M as [mem' M]. exists mem'. rewrite (bind_gives _ _ _ _ _ _ _ M). reflexivity.
        -- unfold cbind at 1. rewrite mock_wbind, M. reflexivity.
      * exists m. cbn [fst snd]. split; [exact HM|]. unfold cbind at 1. rewrite mock_wbind.
        assert (Er : run_mock (run_access vs (Get i index) mem) m = (Err tt, m)).
        { cbn [run_access]. rewrite Ev. rewrite (bind_gives (csome (Some v)) _ mem m _ _ _ (gives_ret _ _ _)).
          unfold get_field. rewrite Ea. reflexivity. }
        rewrite Er. reflexivity.
    + destruct Ho as (fl & Ei & Hi & Hp). destruct (accessed_spec fs vs i fl index Hvs Ei Hi) as (v & Ev & Et & Ea).
      cbn [typed_run contract]. destruct (cell_of fs i index) as [k|] eqn:Ek; cbn [option_map] in Ea.
      * destruct (cell_of_some _ _ _ _ Ek) as (fl' & Ei' & Lk). assert (fl' = fl) by congruence. subst fl'.
        destruct (mock_setter fs m st i fl k p mem HM Ei Lk Hp Hm) as (x & mem1 & r & m1 & E1 & E2 & Hm1 & HM1).
        assert (Er : gives (run_access vs (Set_ i index p)) mem m Written mem1 m1).
        { cbn [run_access]. rewrite Ev. eapply gives_bind; [apply gives_ret|]. eapply gives_bind; [exact E1|]. eapply gives_bind; [|apply gives_ret].
          unfold set_field. rewrite Ea. eapply gives_bind; [apply gives_ret|]. rewrite Et. exact E2. }
        destruct (IH mem1 m1 _ HM1 Hm1 Hok) as (m' & HM' & M).
        destruct (typed_run fs (update st i k p) l) as [rs st']. cbn [fst snd] in *. exists m'. split; [auto|].
        rewrite (bind_gives _ _ _ _ _ _ _ Er). destruct rs as [rs|]; cbn [option_map].
        -- destruct M as [mem' M]. exists mem'. rewrite (bind_gives _ _ _ _ _ _ _ M). reflexivity.
        -- unfold cbind at 1. rewrite mock_wbind, M. reflexivity.
      * exists m. cbn [fst snd]. split; [exact HM|]. destruct (make_gives _ p mem m Hp Hm) as (x & mem1 & E1).
        unfold cbind at 1. rewrite mock_wbind.
        assert (Er : run_mock (run_access vs (Set_ i index p) mem) m = (Err tt, m)).
        { cbn [run_access]. rewrite Ev. rewrite (bind_gives (csome (Some v)) _ mem m _ _ _ (gives_ret _ _ _)).
          rewrite (bind_gives _ _ _ _ _ _ _ E1). unfold set_field. rewrite Ea. reflexivity. }
        rewrite Er. reflexivity.
Qed.
