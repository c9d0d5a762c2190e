(** Parameters of every type (C121). *)
From Coq Require Import List NArith ZArith Bool.
From Verif Require Import Base StorageModel SectionModel SdkModel AbiModel AbiSpec GlobalModel RuntimeModel TypedModel EndpointModel EndpointSpec ParamModel.
Import ListNotations.
Open Scope list_scope.
Open Scope N_scope.

(** A layout: every value takes the same number of bytes, and at least one. *)
Definition vlayout_wf (vl : vlayout) : Prop :=
  0 < vl_size vl /\ forall q p, nlen (vl_bytes vl q p) = vl_size vl.

(** The bytes of the arguments of a call, as the SDK encodes them. *)
Definition encodes_any (args : list rust) (input : bytes) : Prop :=
  exists cap w, encode_tuple args (vec_with_capacity cap) = Some w /\ vec_as_slice w = Some input.
Definition no_eights (ts : list aty) : Prop := Forall (fun t => forall p, t <> YArray p 8) ts.
(** The arguments are short enough not to reach the vectors that are made from them: 22 is the marker
    of an array of one element, the least of those of arrays with elements. *)
Definition short (vl : vlayout) (ts : list aty) (n : N) : Prop :=
  n <= 22 * vl_size vl \/ Forall (fun t => forall p k, t = YArray p k -> k = 0) ts.
(** The memory taken for the vectors: for each array its marker times the size of a value. *)
Definition reserved (vl : vlayout) (t : aty) : N :=
  match t with YArray _ n => array_mark n * vl_size vl | _ => 0 end.
Definition reserved_all (vl : vlayout) (ts : list aty) : N := fold_right (fun t n => reserved vl t + n) 0 ts.

(** The wasm code [bs] is a template made with the SDK, with the function [name]. *)
Definition compiled_any (vl : vlayout) (en : engine) (bs name : bytes) (ts : list aty) (ret : option (list aty))
    (body : list hval -> code (list hval)) : Prop :=
  exists mem i, en_instantiate en bs = WReturn mem i /\ nlen mem < 2 ^ 32
    /\ exports_alloc en i /\ exports en i name (endpoint_any vl ts ret body).

(** The body is entered with the arguments [args], whose [n] bytes stand in the memory below the
    memory in use or right behind it. *)
Definition entered_any (mem : bytes) (f : func_env) (hs : list hval) (args : list rust) (n : N) : Prop :=
  Forall2 (stands mem) hs args /\ Forall (below (fe_used f + n)) hs.
(** As [answers], [returns] and [leaves_returndata] of EndpointSpec. *)
Definition answers_any (e : env) (body : list hval -> code (list hval)) (args : list rust) (n : N) (ts : list aty)
    (Q : list rust -> Prop) : Prop :=
  forall hs mem f g rs mem' f' g',
  entered_any mem f hs args n -> nlen mem < 2 ^ 32 ->
  run_wasm e (body hs mem) f g = (Ok (mem', rs, f'), g') ->
  exists vs, Forall2 typed ts vs /\ Forall2 (stands mem') rs vs
    /\ Forall (below (fe_used f' + tuple_max_byte_size ts)) rs /\ nlen mem' < 2 ^ 32 /\ Q vs.
Definition returns_any (e : env) (body : list hval -> code (list hval)) (args : list rust) (n : N) (ts : list aty)
    (used size : N) (g : gstate) : Prop :=
  forall hs mem f,
  entered_any mem f hs args n -> nlen mem = size -> fe_used f = used -> fe_memory f = true ->
  exists rs mem' f' g', run_wasm e (body hs mem) f g = (Ok (mem', rs, f'), g')
    /\ fe_memory f' = true /\ fe_used f' + 2 * tuple_max_byte_size ts <= nlen mem'.
Definition leaves_any (e : env) (body : list hval -> code (list hval)) : Prop :=
  forall hs mem f g rs mem' f' g', run_wasm e (body hs mem) f g = (Ok (mem', rs, f'), g') ->
  fe_returndata f' = fe_returndata f.
