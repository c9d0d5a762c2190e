(** Which bytes the ABI decoder reads as which value: besides the encoder's own output
    ([AbiSpec.format]), numbers with leading zero bytes. *)
From Coq Require Import List NArith ZArith Bool.
From Verif Require Import Base SdkModel AbiModel AbiSpec.
Import ListNotations.
Open Scope list_scope.
Open Scope N_scope.

(** A number in big-endian bytes. *)
Definition number_of (s : bytes) : N := fold_left (fun n b => n * 256 + b) s 0.
(** The bytes [b] say the primitive [p].  A number has a marker that tells its type and how
    many bytes follow, at most as many as the type has. *)
Definition says_prim (b : bytes) (p : primitive) : Prop :=
  match p with
  | PNone => b = [mark 2 0]
  | PUnit => b = [mark 3 0]
  | PBool f => b = [mark (if f then 1 else 0) 0]
  | PAddress a => length a = 20%nat /\ b = mark 4 0 :: a
  | PAmount n => exists s, 1 <= nlen s <= 8 /\ number_of s = n /\ b = mark (nlen s - 1) 1 :: s
  | PInt t z => exists s, 1 <= nlen s /\ (8 * Z.of_N (nlen s) <= int_bits t)%Z /\
                  in_range t z /\ complement t z = number_of s /\ b = int_mark t (nlen s) :: s
  end.
(** The bytes say a value: a primitive, or an array of at most ten primitives. *)
Definition says (b : bytes) (v : value) : Prop :=
  match v with
  | VPrim p => says_prim b p
  | VVec vs => exists bs ps, vs = map VPrim ps /\ Forall2 says_prim bs ps /\ nlen vs <= 10 /\
                 b = array_mark (nlen vs) :: concat bs
  end.
(** The bytes say these values, one after the other. *)
Definition say_all (b : bytes) (vs : list value) : Prop := exists bs, Forall2 says bs vs /\ b = concat bs.
(** The end of the bytes is missing: something could be added to have them say a value. *)
Definition cut_short (b : bytes) : Prop := exists more v, more <> [] /\ bytes_ok more /\ says (b ++ more) v.
