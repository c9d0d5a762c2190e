(** Calls and spawns as a client that only speaks JSON sees them, with arguments of every type
    (C115, C116). *)
From Coq Require Import String List NArith ZArith Bool.
From Verif Require Import Base Text AbiModel AbiSpec CodecModel CodecSpec ReceiptModel SectionModel StorageModel GlobalModel RuntimeModel JsonModel JsonSpec TripSpec.
Import ListNotations.
Open Scope list_scope.
Open Scope N_scope.

(** The document [c] gives the arguments [args]: as types and values, or as the
    encoded bytes in hexadecimal.  The second is the only way to give a unit or an empty option. *)
Definition given (c : json) (args : list rust) : Prop :=
  (exists ts ds, arg_fields c ts ds /\ length ts = length ds /\ zip_reads ts ds (map rust_value args))
  \/ (exists s, c = JStr s /\ spelled s (flat_map format (map rust_value args))).
(** As [call_document] and [spawn_document] of TripSpec: the arguments are of the types [ts], and
    their bytes are as many as a transaction can carry. *)
Definition given_typed (j : json) (ts : list aty) (args : list rust) : Prop :=
  exists c, field "calldata" j c /\ given c args /\ Forall2 typed ts args
    /\ nlen (flat_map format (map rust_value args)) <= 255.
Definition call_document_any (j : json) (target name : bytes) (ts : list aty) (args : list rust) : Prop :=
  (exists version, field "version" j (JNum (Z.of_N version)) /\ version < 65536)
  /\ (exists s, field "target" j (JStr s) /\ spelled s target /\ length target = 20%nat)
  /\ field "func_name" j (JStr name) /\ string_wf 255 name
  /\ (exists v verifydata, field "verifydata" j v /\ arg_bytes v verifydata /\ nlen verifydata <= 255)
  /\ given_typed j ts args.
Definition spawn_document_any (j : json) (template name ctor : bytes) (ts : list aty) (args : list rust) : Prop :=
  (exists version, field "version" j (JNum (Z.of_N version)) /\ version < 65536)
  /\ (exists s, field "template" j (JStr s) /\ spelled s template /\ length template = 20%nat)
  /\ field "name" j (JStr name) /\ string_wf 255 name
  /\ field "ctor_name" j (JStr ctor) /\ string_wf 255 ctor
  /\ given_typed j ts args.
(** The usual spelling of a value of the type [t]: see [normal_prim]. *)
Definition normal_any (t : aty) (j : json) : Prop :=
  match t with
  | YPrim t => normal_prim t j
  | YArray t _ => exists js, j = JArr js /\ Forall (normal_prim t) js
  | YUnit | YOption _ => False
  end.

(** ** Results *)
(** The type and the value that are shown for a returned value of the type [t].  An option that is
    not empty is shown as its content, an empty array without a type; nothing is shown for units,
    empty options and arrays of eight elements. *)
Definition result_doc (t : aty) (v : rust) : option (json * json) :=
  match t, v with
  | YPrim t, RPrim p => Some (JStr (type_name t), show_prim p)
  | YOption t, ROption (Some p) => Some (JStr (type_name t), show_prim p)
  | YArray t n, RArray l =>
      if n =? 8 then None
      else Some (if n =? 0 then JNull else JArr [JStr (type_name t)], JArr (map show_prim l))
  | _, _ => None
  end.
Fixpoint result_docs (ts : list aty) (vs : list rust) : option (list (json * json)) :=
  match ts, vs with
  | t :: ts', v :: vs' =>
      match result_doc t v, result_docs ts' vs' with Some d, Some ds => Some (d :: ds) | _, _ => None end
  | _, _ => Some []
  end.
(** The document of returned values: if one of them has none, decoding aborts. *)
Definition results_doc (ts : list aty) (vs : list rust) : outcome json_error json :=
  match result_docs ts vs with
  | Some ds => Ok (JObj [(txt "abi", JArr (map fst ds)); (txt "data", JArr (map snd ds))])
  | None => Panic
  end.
