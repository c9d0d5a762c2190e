(** What the template macro and the deploy command are expected to do, stated without their
    loops, flags and JSON. *)
From Coq Require Import String List NArith ZArith Bool Lia.
From Verif Require Import Base Text CodecModel ReceiptModel LayoutModel SectionModel SdkModel SdkSpec AbiModel JsonModel MacroModel.
Import ListNotations.
Open Scope list_scope.
Open Scope N_scope.

(** ** Annotations *)
Definition is_named (s : string) (a : raw_attr) : Prop := ra_name a = txt s.
Definition annotated (s : string) (f : mfunction) : Prop := exists a, In a (fn_attrs f) /\ is_named s a.
(** No two annotations of the function have this name. *)
Definition at_most_once (s : string) (f : mfunction) : Prop :=
  forall i j a b, nth_error (fn_attrs f) i = Some a -> nth_error (fn_attrs f) j = Some b ->
  is_named s a -> is_named s b -> i = j.
(** Every annotation [s] stands above every annotation [s']. *)
Definition above (s s' : string) (f : mfunction) : Prop :=
  forall i j a b, nth_error (fn_attrs f) i = Some a -> nth_error (fn_attrs f) j = Some b ->
  is_named s a -> is_named s' b -> (i < j)%nat.
(** A function callers can reach. *)
Definition entry (f : mfunction) : Prop := annotated "ctor" f \/ annotated "endpoint" f.
(** A fundable hook for the entries that name none. *)
Definition default_for_funds (f : mfunction) : Prop :=
  exists a s, In a (fn_attrs f) /\ is_named "fundable_hook" a /\ ra_args a = IdentArg s.

Definition args_legal (a : raw_attr) : Prop :=
  (is_named "ctor" a \/ is_named "endpoint" a -> ra_args a = NoArgs \/ ra_args a = EmptyArgs \/ exists s, ra_args a = DocArg s) /\
  (is_named "fundable" a \/ is_named "fundable_hook" a -> ra_args a = NoArgs \/ exists s, ra_args a = IdentArg s).
Definition written_legal (w : written) : Prop := wt_prefix w = true -> wt_type w = TAmount \/ wt_type w = TAddress.
Definition base_legal (b : base_type) : Prop :=
  match b with BPrim w => written_legal w | BArray w n => written_legal w /\ n < 2 ^ 32 end.
Definition type_legal (t : mtype) : Prop := match t with MBase b => base_legal b | MTuple bs => Forall base_legal bs end.

(** The rules for one function. *)
Record legal_function (f : mfunction) : Prop := mkLegalFunction {
  lf_args : Forall args_legal (fn_attrs f);
  lf_once : at_most_once "ctor" f /\ at_most_once "endpoint" f /\ at_most_once "fundable" f /\ at_most_once "fundable_hook" f;
  lf_ctor_endpoint : ~ (annotated "ctor" f /\ annotated "endpoint" f);
  lf_endpoint_hook : ~ (annotated "endpoint" f /\ annotated "fundable_hook" f);
  lf_fundable_hook : ~ (annotated "fundable" f /\ annotated "fundable_hook" f);
  lf_fundable : annotated "fundable" f -> entry f;
  lf_above : above "fundable" "ctor" f /\ above "fundable" "endpoint" f;
  lf_entry : entry f -> fn_odd f = false
    /\ Forall (fun p => exists b, snd p = MBase b /\ base_legal b) (fn_params f)
    /\ (forall t, fn_output f = Some t -> type_legal t);
  lf_hook : annotated "fundable_hook" f -> ~ annotated "ctor" f -> fn_params f = [] /\ fn_output f = None
}.
(** The types of the fields of a struct. *)
Definition field_types (s : mstruct) : list field_type :=
  flat_map (fun p => match snd p with
    | MBase (BPrim w) => [FPrim (wt_type w)]
    | MBase (BArray w n) => [FArray (wt_type w) n]
    | MTuple _ => []
    end) (ms_fields s).
Record legal_struct (s : mstruct) : Prop := mkLegalStruct {
  ls_storage : ms_storage s = true;
  ls_plain : ms_odd s = false;
  ls_fields : Forall (fun p => exists b, snd p = MBase b /\ base_legal b) (ms_fields s);
  ls_room : count_cells (field_types s) < 2 ^ 32
}.
Record legal_template (t : template) : Prop := mkLegal {
  lt_functions : Forall legal_function (tp_functions t);
  lt_default : forall i j f g, nth_error (tp_functions t) i = Some f -> nth_error (tp_functions t) j = Some g ->
    default_for_funds f -> default_for_funds g -> i = j;
  lt_structs : Forall legal_struct (tp_structs t);
  lt_storage : (length (tp_structs t) <= 1)%nat
}.

(** ** What is generated *)
(** The hook an entry calls when it receives funds. *)
Inductive calls_hook (t : template) (f : mfunction) : option bytes -> Prop :=
| NoHook : ~ annotated "fundable" f -> calls_hook t f None
| NamedHook a s : In a (fn_attrs f) -> is_named "fundable" a -> ra_args a = IdentArg s -> calls_hook t f (Some s)
| DefaultHook a h : In a (fn_attrs f) -> is_named "fundable" a -> ra_args a = NoArgs ->
    In h (tp_functions t) -> default_for_funds h -> calls_hook t f (Some (fn_name h))
| ImplicitHook a : In a (fn_attrs f) -> is_named "fundable" a -> ra_args a = NoArgs ->
    (forall h, In h (tp_functions t) -> ~ default_for_funds h) -> calls_hook t f (Some (txt "svm_fund")).
(** What a function becomes. *)
Inductive becomes (t : template) (f : mfunction) : item -> Prop :=
| BecomesEntry h : entry f -> calls_hook t f h -> becomes t f (IEntry (fn_name f) h)
| BecomesHook : ~ entry f -> annotated "fundable_hook" f -> becomes t f (IHook (fn_name f))
| BecomesPlain : ~ entry f -> ~ annotated "fundable_hook" f -> becomes t f (IPlain (fn_name f)).

(** ** The description *)
(** The storage of a template. *)
Definition storage_types (t : template) : list field_type := flat_map field_types (tp_structs t).
(** A field of a JSON object. *)
Definition at_key (s : string) (j : json) : option json :=
  match j with JObj fs => assoc (txt s) fs | _ => None end.
(** The documentation string of an entry. *)
Definition documented (f : mfunction) (d : bytes) : Prop :=
  exists a, In a (fn_attrs f) /\ (is_named "ctor" a \/ is_named "endpoint" a) /\
    (ra_args a = DocArg d \/ (d = [] /\ forall s, ra_args a <> DocArg s)).
(** The names of the types, as authors write them. *)
Inductive type_word : prim_type -> string -> Prop :=
| w_bool : type_word TBool "bool"
| w_amount : type_word TAmount "Amount"
| w_address : type_word TAddress "Address"
| w_i8 : type_word TI8 "i8" | w_i16 : type_word TI16 "i16" | w_i32 : type_word TI32 "i32" | w_i64 : type_word TI64 "i64"
| w_u8 : type_word TU8 "u8" | w_u16 : type_word TU16 "u16" | w_u32 : type_word TU32 "u32" | w_u64 : type_word TU64 "u64".
Definition as_written (w : written) (s : bytes) : Prop :=
  exists x, type_word (wt_type w) x /\ s = if wt_prefix w then txt "svm_sdk :: " ++ txt x else txt x.
(** The object describes a parameter: its name, its type and, of an array, how long it is. *)
Definition describes_param (j : json) (q : bytes * mtype) : Prop :=
  at_key "name" j = Some (JStr (fst q)) /\
  match snd q with
  | MBase (BPrim w) => at_key "length" j = None /\ exists s, as_written w s /\ at_key "type" j = Some (JStr s)
  | MBase (BArray w n) => at_key "length" j = Some (JNum (Z.of_N n)) /\ exists s, as_written w s /\ at_key "type" j = Some (JStr (txt "[" ++ s ++ txt "]"))
  | MTuple _ => False
  end.
(** The document describes a result; the type of an array is not bracketed here. *)
Definition describes_base (j : json) (b : base_type) : Prop :=
  match b with
  | BPrim w => at_key "length" j = None /\ exists s, as_written w s /\ at_key "type" j = Some (JStr s)
  | BArray w n => at_key "length" j = Some (JNum (Z.of_N n)) /\ exists s, as_written w s /\ at_key "type" j = Some (JStr s)
  end.
Definition describes_result (j : json) (o : option mtype) : Prop :=
  match o with
  | None => j = JObj []
  | Some (MBase b) => describes_base j b
  | Some (MTuple bs) => exists l, j = JArr l /\ Forall2 describes_base l bs
  end.
(** The object describes the entry. *)
Definition describes_entry (j : json) (f : mfunction) : Prop :=
  at_key "name" j = Some (JStr (fn_name f)) /\ at_key "wasm_name" j = Some (JStr (fn_name f)) /\
  (exists b, at_key "is_ctor" j = Some (JBool b) /\ (b = true <-> annotated "ctor" f)) /\
  (exists b, at_key "is_fundable" j = Some (JBool b) /\ (b = true <-> annotated "fundable" f)) /\
  (exists d, at_key "doc" j = Some (JStr d) /\ documented f d) /\
  (exists s ps r, at_key "signature" j = Some s /\ at_key "params" s = Some (JArr ps) /\ at_key "returns" s = Some r /\
    Forall2 describes_param ps (fn_params f) /\ describes_result r (fn_output f)).
(** The object describes the variables of a field: number [id], at byte [offset]. *)
Definition describes_field (j : json) (name : bytes) (f : field_type) (id offset : N) : Prop :=
  at_key "name" j = Some (JStr name) /\ at_key "id" j = Some (JNum (Z.of_N id)) /\
  at_key "offset" j = Some (JNum (Z.of_N offset)) /\ at_key "byte_count" j = Some (JNum (Z.of_N (type_size (field_prim f)))) /\
  exists x, type_word (field_prim f) x /\
  match f with
  | FPrim t => at_key "length" j = None /\ at_key "type" j = Some (JStr (txt x))
  | FArray t n => at_key "length" j = Some (JNum (Z.of_N n)) /\ at_key "type" j = Some (JStr (txt "[" ++ txt x ++ txt "]"))
  end.

(** ** Deploying *)
Definition is_ctor_of (t : template) (n : bytes) : Prop :=
  exists f, In f (tp_functions t) /\ fn_name f = n /\ annotated "ctor" f.
(** What a deploy message can carry: at most 254 constructors, names of at most 255 bytes, fewer
    than 65535 variables, and code that fits its section. *)
Record deployable (t : template) (code : bytes) : Prop := mkDeployable {
  dp_ctors : forall l, NoDup l -> (forall n, In n l -> is_ctor_of t n) -> nlen l <= 254;
  dp_names : forall n, is_ctor_of t n -> nlen n <= 255;
  dp_vars : count_cells (storage_types t) < 65535;
  dp_code : nlen code < 2 ^ 32 - 27
}.
