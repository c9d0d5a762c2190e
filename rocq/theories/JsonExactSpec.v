(** What the JSON decoders show of input data, for any bytes. *)
From Coq Require Import String List NArith ZArith Bool.
From Verif Require Import Base Text SdkModel AbiModel AbiSpec AbiExactSpec CodecModel JsonModel JsonSpec.
Import ListNotations.
Open Scope list_scope.
Open Scope N_scope.

(** The type of a primitive, if it has one that JSON can name. *)
Definition type_of (p : primitive) : option pty :=
  match p with
  | PBool _ => Some YBool | PAmount _ => Some YAmount | PAddress _ => Some YAddress | PInt t _ => Some (YInt t)
  | PNone | PUnit => None
  end.
(** Values that JSON can show: not "none" or "unit", alone or in an array. *)
Definition printable (v : value) : Prop :=
  match v with
  | VPrim p => type_of p <> None
  | VVec vs => Forall (fun v => exists p, v = VPrim p /\ type_of p <> None) vs
  end.
Definition show_type (p : primitive) : json := match type_of p with Some t => JStr (type_name t) | None => JNull end.
(** An array is shown with the type of its last element; an empty one without a type. *)
Definition show_type_of (v : value) : json :=
  match v with
  | VPrim p => show_type p
  | VVec vs => match rev vs with VPrim p :: _ => JArr [show_type p] | _ => JNull end
  end.
Definition printed (vs : list value) : json :=
  JObj [(txt "abi", JArr (map show_type_of vs)); (txt "data", JArr (map show_value vs))].
(** Input data that can be shown, and the values it says. *)
Definition input_says (bs : bytes) (vs : list value) : Prop :=
  say_all bs vs /\ Forall (fun v => ~ array_of_eight v) vs /\ Forall printable vs.
Definition no_empty_arrays (vs : list value) : Prop := Forall (fun v => v <> VVec []) vs.
