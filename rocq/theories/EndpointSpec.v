(** What the author of a template and the caller of its functions expect: the function's body
    gets the arguments of the call, and the receipt has what it returns. *)
From Coq Require Import List NArith ZArith Bool.
From Verif Require Import Base StorageModel SectionModel SdkModel AbiModel AbiSpec GlobalModel RuntimeModel TypedModel EndpointModel.
Import ListNotations.
Open Scope list_scope.
Open Scope N_scope.

(** What the contract holds, with the memory [mem], is the value [p]. *)
Definition denotes (mem : bytes) (h : held) (p : primitive) : Prop :=
  match h with
  | HBool b => p = PBool b
  | HInt t z => p = PInt t z
  | HAmount n => p = PAmount n
  | HPtr q => exists a, p = PAddress a /\ mem_read mem q 20 = Some a
  end.
Definition stands (mem : bytes) (v : hval) (r : rust) : Prop :=
  match v, r with
  | HUnit, RUnit => True
  | HVal h, RPrim p => denotes mem h p
  | HOpt None, ROption None => True
  | HOpt (Some h), ROption (Some p) => denotes mem h p
  | HArr hs, RArray ps => Forall2 (denotes mem) hs ps
  | _, _ => False
  end.
(** The addresses of a returned value stand below [limit] in the memory. *)
Definition held_below (limit : N) (h : held) : Prop := match h with HPtr q => q + 20 <= limit | _ => True end.
Definition below (limit : N) (v : hval) : Prop :=
  match v with
  | HVal h | HOpt (Some h) => held_below limit h
  | HArr hs => Forall (held_below limit) hs
  | _ => True
  end.

(** The bytes of the arguments of a call, as the SDK encodes them. *)
Definition encodes_args (ps : list primitive) (input : bytes) : Prop :=
  exists cap w, encode_tuple (map RPrim ps) (vec_with_capacity cap) = Some w /\ vec_as_slice w = Some input.
(** The caller reads values of the types [ts], and nothing else, from the bytes of a receipt. *)
Definition reads_back (ts : list aty) (data : bytes) (vs : list rust) : Prop :=
  exists c, next_tuple ts (calldata_new data) = Some (vs, c) /\ calldata_next c = Some None.

(** The wasm code [bs] is a template made with the SDK, with the function [name]. *)
Definition compiled (en : engine) (bs name : bytes) (ts : list pty) (ret : option (list aty))
    (body : list held -> code (list hval)) : Prop :=
  exists mem i, en_instantiate en bs = WReturn mem i /\ nlen mem < 2 ^ 32
    /\ exports_alloc en i /\ exports en i name (endpoint ts ret body).
(** The code of the template of the account [target]. *)
Definition has_code (e : env) (g : gstate) (target bs : bytes) : Prop :=
  exists t l c, fst (account_template e target g) = Ok t /\ fst (template_sections e t g) = Ok l
    /\ code_of l = Some c /\ cs_code c = bs.

(** The body is entered with the arguments [ps], whose [n] bytes stand in the memory right behind
    the memory in use. *)
Definition entered (mem : bytes) (f : func_env) (hs : list held) (ps : list primitive) (n : N) : Prop :=
  Forall2 (denotes mem) hs ps /\ Forall (held_below (fe_used f + n)) hs.
(** Entered with the arguments [ps], the body returns, if it does, values of the types [ts] for
    which [Q] holds; the addresses among them stand below the place where the macro's code puts
    its answer: twice the answer's size behind the memory in use. *)
Definition answers (e : env) (body : list held -> code (list hval)) (ps : list primitive) (n : N) (ts : list aty)
    (Q : list rust -> Prop) : Prop :=
  forall hs mem f g rs mem' f' g',
  entered mem f hs ps n -> nlen mem < 2 ^ 32 ->
  run_wasm e (body hs mem) f g = (Ok (mem', rs, f'), g') ->
  exists vs, Forall2 typed ts vs /\ Forall2 (stands mem') rs vs
    /\ Forall (below (fe_used f' + tuple_max_byte_size ts)) rs /\ nlen mem' < 2 ^ 32 /\ Q vs.
(** Entered with these arguments, [used] bytes of the memory taken out of [size], the body does
    return, and leaves room for the answer. *)
Definition returns (e : env) (body : list held -> code (list hval)) (ps : list primitive) (n : N) (ts : list aty)
    (used size : N) (g : gstate) : Prop :=
  forall hs mem f,
  entered mem f hs ps n -> nlen mem = size -> fe_used f = used -> fe_memory f = true ->
  exists rs mem' f' g', run_wasm e (body hs mem) f g = (Ok (mem', rs, f'), g')
    /\ fe_memory f' = true /\ fe_used f' + 2 * tuple_max_byte_size ts <= nlen mem'.
(** The body does not set the call's answer itself. *)
Definition leaves_returndata (e : env) (body : list held -> code (list hval)) : Prop :=
  forall hs mem f g rs mem' f' g', run_wasm e (body hs mem) f g = (Ok (mem', rs, f'), g') ->
  fe_returndata f' = fe_returndata f.
