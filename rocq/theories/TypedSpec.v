(** What a contract's author expects of the fields of a storage struct: typed variables, each
    holding what was last written to it. *)
From Coq Require Import List NArith ZArith Bool.
From Verif Require Import Base StorageModel SdkModel SdkSpec AbiModel AbiSpec GlobalModel TypedModel.
Import ListNotations.
Open Scope list_scope.
Open Scope N_scope.

(** [p] is a value of the type [t]. *)
Definition of_type (t : prim_type) (p : primitive) : Prop :=
  match t, p with
  | TBool, PBool _ => True
  | TAmount, PAmount n => n < 2 ^ 64
  | TAddress, PAddress a => bytes_ok a /\ length a = 20%nat
  | (TI8 | TU8 | TI16 | TU16 | TI32 | TU32 | TI64 | TU64), PInt t' z => t' = ity_of t /\ in_range t' z
  | _, _ => False
  end.
(** The value before the first write. *)
Definition zero_of (t : prim_type) : primitive :=
  match t with
  | TBool => PBool false
  | TAmount => PAmount 0
  | TAddress => PAddress (repeat 0 20)
  | _ => PInt (ity_of t) 0
  end.

(** A store: the value of each cell of each field; a primitive field has the cell 0 only. *)
Definition store := nat -> N -> primitive.
Definition zero_store (fs : list field_type) : store := fun i _ =>
  match nth_error fs i with Some f => zero_of (field_prim f) | None => PUnit end.
Definition update (st : store) (i : nat) (k : N) (p : primitive) : store :=
  fun i' k' => if Nat.eqb i' i && (k' =? k) then p else st i' k'.

(** Accesses that compile: a field of the struct, an index (of 32 bits) exactly for arrays, and a
    value of the field's type. *)
Definition index_ok (f : field_type) (index : option N) : Prop :=
  match f, index with
  | FPrim _, None => True
  | FArray _ _, Some k => k < 2 ^ 32
  | _, _ => False
  end.
Definition access_ok (fs : list field_type) (a : access) : Prop :=
  match a with
  | Get i index => exists f, nth_error fs i = Some f /\ index_ok f index
  | Set_ i index p => exists f, nth_error fs i = Some f /\ index_ok f index /\ of_type (field_prim f) p
  end.
(** The cell accessed; an index beyond the end of an array aborts. *)
Definition cell_of (fs : list field_type) (i : nat) (index : option N) : option N :=
  match nth_error fs i with
  | Some f =>
      let k := match index with Some k => k | None => 0 end in
      if k <? field_cells f then Some k else None
  | None => None
  end.
(** What a sequence of accesses sees ([None] = it aborts), and the store it leaves. *)
Fixpoint typed_run (fs : list field_type) (st : store) (l : list access) : option (list seen) * store :=
  match l with
  | [] => (Some [], st)
  | Get i index :: l' =>
      match cell_of fs i index with
      | None => (None, st)
      | Some k =>
          let (rs, st') := typed_run fs st l' in
          (option_map (cons (Read (st i k))) rs, st')
      end
  | Set_ i index p :: l' =>
      match cell_of fs i index with
      | None => (None, st)
      | Some k =>
          let (rs, st') := typed_run fs (update st i k p) l' in
          (option_map (cons Written) rs, st')
      end
  end.

(** The bytes of a value in an account's storage: integers are little-endian two's complement. *)
Definition cell_bytes (t : prim_type) (p : primitive) : bytes :=
  match p with
  | PBool b => [if b then 1 else 0]
  | PAmount n => le_bytes 8 n
  | PInt t' z => le_bytes (N.to_nat (type_size t)) (Z.to_N (z mod 2 ^ int_bits t'))
  | PAddress a => a
  | _ => []
  end.
(** Variables are numbered from 0, in the order of the fields. *)
Definition variable (fs : list field_type) (i : nat) (k : N) : N := count_cells (firstn i fs) + k.
(** The variables of the account hold the values of [st]. *)
Definition represents (e : env) (a : account) (fs : list field_type) (g : gstate) (st : store) : Prop :=
  forall i f k, nth_error fs i = Some f -> k < field_cells f ->
  of_type (field_prim f) (st i k)
  /\ fst (get_var_vec e a (variable fs i k) g) = Ok (cell_bytes (field_prim f) (st i k)).
