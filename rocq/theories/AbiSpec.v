(** What the ABI promises, stated without the encoder's loops and the decoder's tables. *)
From Coq Require Import List NArith ZArith Bool Lia.
From Verif Require Import Base SdkModel AbiModel.
Import ListNotations.
Open Scope list_scope.
Open Scope N_scope.

(** ** Values that exist *)
Definition int_bits (t : ity) : Z :=
  match t with I8 | U8 => 8 | I16 | U16 => 16 | I32 | U32 => 32 | I64 | U64 => 64 end.
Definition has_sign (t : ity) : bool := match t with I8 | I16 | I32 | I64 => true | U8 | U16 | U32 | U64 => false end.
Definition in_range (t : ity) (z : Z) : Prop :=
  if has_sign t then (- 2 ^ (int_bits t - 1) <= z < 2 ^ (int_bits t - 1))%Z
  else (0 <= z < 2 ^ int_bits t)%Z.
Definition prim_ok (p : primitive) : Prop :=
  match p with
  | PAddress a => bytes_ok a /\ length a = 20%nat
  | PAmount n => n < 2 ^ 64
  | PInt t z => in_range t z
  | _ => True
  end.
(** Primitives and arrays of at most ten primitives. *)
Definition flat (v : value) : Prop :=
  match v with
  | VPrim p => prim_ok p
  | VVec vs => nlen vs <= 10 /\ Forall (fun v => exists p, v = VPrim p /\ prim_ok p) vs
  end.
Definition array_of_eight (v : value) : Prop := match v with VPrim _ => False | VVec vs => nlen vs = 8 end.

(** ** The documented format: abi-layout/src/lib.rs:1-73 *)
(** The bytes a number needs, at least one. *)
Definition width (n : N) : N := N.log2 n / 8 + 1.
Definition number (n : N) : bytes := be_bytes (N.to_nat (width n)) n.
(** A marker: upper and lower half. *)
Definition mark (hi lo : N) : N := hi * 16 + lo.
Definition int_mark (t : ity) (w : N) : N :=
  match t with
  | I8 => mark 0 2 | U8 => mark 1 2
  | I16 => mark (1 + w) 2 | U16 => mark (3 + w) 2
  | I32 => mark (w - 1) 3 | U32 => mark (3 + w) 3
  | I64 => mark (w - 1) 4 | U64 => mark (w - 1) 5
  end.
(** The two's complement of an integer. *)
Definition complement (t : ity) (z : Z) : N := Z.to_N (z mod 2 ^ int_bits t).
Definition prim_format (p : primitive) : bytes :=
  match p with
  | PNone => [mark 2 0]
  | PUnit => [mark 3 0]
  | PBool b => [mark (if b then 1 else 0) 0]
  | PAddress a => mark 4 0 :: a
  | PAmount n => mark (width n - 1) 1 :: number n
  | PInt t z => int_mark t (width (complement t z)) :: number (complement t z)
  end.
Definition array_mark (n : N) : N := if n <? 8 then mark n 6 else mark (n - 8) 7.
Fixpoint format (v : value) : bytes :=
  match v with
  | VPrim p => prim_format p
  | VVec vs => array_mark (nlen vs) :: flat_map format vs
  end.

(** ** Encoding *)
(** Encoding [v] into an empty vector of some capacity gives the bytes [e]. *)
Definition encodes (v : value) (e : bytes) : Prop :=
  exists cap w, encode_value v (vec_with_capacity cap) = Some w /\ vec_as_slice w = Some e.
(** Encoding values one after the other. *)
Definition encode_values (vs : list value) (w : fvec N) : option (fvec N) :=
  fold_left (fun w v => let? w := w in encode_value v w) vs (Some w).

(** ** Types *)
Definition prim_typed (t : pty) (p : primitive) : Prop :=
  prim_ok p /\
  match t with
  | YBool => exists b, p = PBool b
  | YAmount => exists n, p = PAmount n
  | YAddress => exists a, p = PAddress a
  | YInt t => exists z, p = PInt t z
  end.
Definition typed (t : aty) (r : rust) : Prop :=
  match t, r with
  | YUnit, RUnit => True
  | YPrim t, RPrim p => prim_typed t p
  | YOption t, ROption None => True
  | YOption t, ROption (Some p) => prim_typed t p
  | YArray t n, RArray l => nlen l = n /\ n <= 10 /\ Forall (prim_typed t) l
  | _, _ => False
  end.
(** The value that a Rust value is encoded as. *)
Definition rust_value (r : rust) : value :=
  match r with
  | RUnit => VPrim PUnit
  | RPrim p => VPrim p
  | ROption None => VPrim PNone
  | ROption (Some p) => VPrim p
  | RArray l => VVec (map VPrim l)
  end.
Definition is_array (r : rust) : Prop := match r with RArray _ => True | _ => False end.
