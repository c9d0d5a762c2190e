(** Specification vocabulary for the C interface (C50, C83-C87).  A history is seen from
    outside as the list of calls made with the replies they got. *)
From Coq Require Import List NArith ZArith Bool.
From Verif Require Import Base CodecModel CodecSpec ReceiptModel ReceiptSpec LayoutModel SectionModel SectionSpec StorageModel StorageSpec.
From Verif Require Import GlobalModel GlobalSpec RuntimeModel RuntimeSpec FfiModel.
Import ListNotations.
Open Scope N_scope.

Definition trace := list (capi * creply).

(** The calls [ops] made from [lb] are answered as in [tr] and lead to [lb']. *)
Definition answered (w : world) (lb : library) (tr : trace) (lb' : library) : Prop :=
  capi_run w (map fst tr) lb = (map snd tr, lb').

(** How many runtimes were handed out, how many given back. *)
Definition is_creation (x : capi * creply) : bool :=
  match x with (CCreate _ _, RHandle _) => true | _ => false end.
Definition is_destruction (x : capi * creply) : bool :=
  match x with (CDestroy _, ROk) => true | _ => false end.
Definition creations (tr : trace) : N := nlen (filter is_creation tr).
Definition destructions (tr : trace) : N := nlen (filter is_destruction tr).

(** A handle is open from its creation to its destruction. *)
Fixpoint is_open (p : N) (tr : trace) (before : bool) : bool :=
  match tr with
  | [] => before
  | x :: tr' =>
    is_open p tr'
      (match x with
       | (CCreate _ _, RHandle q) => if p =? q then true else before
       | (CDestroy q, ROk) => if p =? q then false else before
       | _ => before
       end)
  end.

(** The allocator never returns the address of something that is still in use. *)
Definition allocator_ok (tr : trace) : Prop :=
  forall tr1 l p tr2, tr = tr1 ++ (CCreate l p, RHandle p) :: tr2 -> is_open p tr1 false = false.

(** What is asked of one runtime, and the answers. *)
Fixpoint asked (p : N) (tr : trace) : list request :=
  match tr with
  | [] => []
  | (COn q x, _) :: tr' => if p =? q then x :: asked p tr' else asked p tr'
  | _ :: tr' => asked p tr'
  end.
Fixpoint told (p : N) (tr : trace) : list creply :=
  match tr with
  | [] => []
  | (COn q _, a) :: tr' => if p =? q then a :: told p tr' else told p tr'
  | _ :: tr' => told p tr'
  end.
Definition reopened (p : N) (tr : trace) : Prop := exists x, In x tr /\
  ((exists l, fst x = CCreate l p) \/ fst x = CDestroy p).

(** A runtime alone. *)
Fixpoint serve_all (w : world) (qs : list request) (r : runtime) : list creply * runtime :=
  match qs with
  | [] => ([], r)
  | q :: rest =>
    let (a, r1) := serve w q r in
    let (l, r2) := serve_all w rest r1 in
    (a :: l, r2)
  end.

(** The runtime behind a handle. *)
Definition behind (lb : library) (p : N) : option runtime := tracker_get (lb_runtimes lb) p.

(** Arguments are values of their C types. *)
Definition request_wf (q : request) : Prop :=
  match q with
  | QValidateDeploy m | QValidateSpawn m | QValidateCall m => bytes_ok m
  | QDeploy v m c | QSpawn v m c | QVerify v m c | QCall v m c =>
      array_wf 60 v /\ bytes_ok m /\ array_wf 72 c
  | QUncommitted | QLayerInfo | QRewind _ | QCommit => True
  | QGetAccount addr _ => array_wf 20 addr
  | QGenesisAccount addr b u l => array_wf 20 addr /\ uint_wf 64 b /\ uint_wf 64 u /\ uint_wf 64 l
  | QIncrease addr _ => array_wf 20 addr
  | QTransfer src dst _ => array_wf 20 src /\ array_wf 20 dst
  end.
(** A database file is new or was made by this library (it has its root layer). *)
Definition location_wf (l : location) : Prop :=
  match l with
  | AtPath _ (Some d) => d = empty_db \/ exists x, In x (db_layers d) /\ lr_id x = initial_layer_id
  | _ => True
  end.
Definition capi_wf (o : capi) : Prop :=
  match o with CCreate l _ => location_wf l | COn _ q => request_wf q | _ => True end.

(** Outside world within the assumptions of the other parts. *)
Definition world_wf (w : world) : Prop :=
  iterates (w_env w) /\ collision_free (w_env w) /\ hash_wf (w_env w) /\ engine_wf (w_engine w)
  /\ Forall (fun t => array_wf 20 (fst t) /\ sections_wf (snd t)) (w_genesis w)
  /\ array_wf 20 (w_sct w).

(** Requests that only look. *)
Definition only_looks (q : request) : Prop :=
  match q with
  | QValidateDeploy _ | QValidateSpawn _ | QValidateCall _ | QUncommitted | QLayerInfo | QGetAccount _ _ => True
  | _ => False
  end.
(** Requests that need the state of the runtime. *)
Definition needs_state (q : request) : Prop :=
  match q with QValidateDeploy _ | QValidateSpawn _ | QValidateCall _ | QDeploy _ _ _ => False | _ => True end.

(** A transaction executed with the runtime itself. *)
Inductive tx := TxDeploy | TxSpawn | TxVerify | TxCall.
Definition execute (w : world) (t : tx) (ev : envelope) (m : bytes) (g : gstate) (c : price_cache)
    : option receipt * gstate * price_cache :=
  match t with
  | TxDeploy => let (o, g') := deploy (w_env w) ev m g in (option_map RDeploy o, g', c)
  | TxSpawn => let '(o, c', g') := spawn (w_env w) (w_engine w) ev m c g in (option_map RSpawn o, g', c')
  | TxVerify => let (o, g') := verify (w_env w) (w_engine w) m g in (option_map RCall o, g', c)
  | TxCall => let (o, g') := rt_call (w_env w) (w_engine w) m g in (option_map RCall o, g', c)
  end.
(** The same transaction through the C interface. *)
Definition submit (t : tx) (envelope m context : bytes) : request :=
  match t with
  | TxDeploy => QDeploy envelope m context
  | TxSpawn => QSpawn envelope m context
  | TxVerify => QVerify envelope m context
  | TxCall => QCall envelope m context
  end.
(** What the wire format of receipts preserves (ReceiptSpec). *)
Definition receipt_view (r : receipt) : receipt :=
  match r with
  | RDeploy d => RDeploy (deploy_view d) | RSpawn s => RSpawn (spawn_view s) | RCall c => RCall (call_view c)
  end.
