(** What a test of a contract expects of its host, with addresses that are bytes and no hash
    map. *)
From Coq Require Import List NArith Bool.
From Verif Require Import Base SdkModel AbiModel AbiSpec HostModel.
Import ListNotations.
Open Scope N_scope.

Record world : Type := mkWorld {
  w_calldata : option bytes;
  w_returndata : option bytes;
  w_balance : bytes -> N;
  w_value : option N;
  w_principal : option bytes;
  w_target : option bytes;
  w_layer : option N;
  w_logs : list (bytes * N);
}.
Definition fresh : world := mkWorld None None (fun _ => 0) None None None None [].

Definition beq (a b : bytes) : bool := if list_eq_dec N.eq_dec a b then true else false.
Definition given (a : bytes) (n : N) (b : bytes -> N) : bytes -> N := fun x => if beq x a then n else b x.
(** Coins leave one account and arrive in the other. *)
Definition moved (src dst : bytes) (n : N) (b : bytes -> N) : bytes -> N :=
  fun x => b x - (if beq x src then n else 0) + (if beq x dst then n else 0).

(** The calldata of a tuple of arguments: their encodings (AbiSpec) one after the other. *)
Definition meaning (r : rust) : value :=
  match r with
  | RUnit => VPrim PUnit
  | RPrim p => VPrim p
  | ROption None => VPrim PNone
  | ROption (Some p) => VPrim p
  | RArray l => VVec (map VPrim l)
  end.
Definition encoded (rs : list rust) : bytes := flat_map (fun r => format (meaning r)) rs.
(** What one call does: [None] when it is refused.  Looking changes nothing; what was set is
    what is seen; a transfer needs the coins; [Reset] gives a new host. *)
Definition expected (o : hop bytes) (w : world) : option (answer * world) :=
  let 'mkWorld cd rd b v p t l lg := w in
  match o with
  | SetCalldata rs => Some (Done, mkWorld (Some (encoded rs)) rd b v p t l lg)
  | SetRawCalldata x => Some (Done, mkWorld (Some x) rd b v p t l lg)
  | SetReturndata x => Some (Done, mkWorld cd (Some x) b v p t l lg)
  | SetBalance a n => Some (Done, mkWorld cd rd (given a n b) v p t l lg)
  | SetValue n => Some (Done, mkWorld cd rd b (Some n) p t l lg)
  | SetPrincipal a => Some (Done, mkWorld cd rd b v (Some a) t l lg)
  | SetTarget a => Some (Done, mkWorld cd rd b v p (Some a) l lg)
  | SetLayer n => Some (Done, mkWorld cd rd b v p t (Some n) lg)
  | Transfer dst n =>
      match t with
      | Some src => if (n <=? b src) && (moved src dst n b dst <=? u64_max) then Some (Done, mkWorld cd rd (moved src dst n b) v p t l lg) else None
      | None => None
      end
  | Log msg code => Some (Done, mkWorld cd rd b v p t l (lg ++ [(msg, code)]))
  | Reset => Some (Done, fresh)
  | Calldata => option_map (fun x => (Bytes x, w)) cd
  | Returndata => Some (Maybe rd, w)
  | Value => option_map (fun x => (Number x, w)) v
  | Principal => option_map (fun x => (Addr x, w)) p
  | Target => option_map (fun x => (Addr x, w)) t
  | Layer => option_map (fun x => (Number x, w)) l
  | Balance => option_map (fun x => (Number (b x), w)) t
  | BalanceOf a => Some (Number (b a), w)
  | Logs => Some (Messages lg, w)
  end.
(** A refused call changes nothing. *)
Definition after (o : hop bytes) (w : world) : world := match expected o w with Some (_, w') => w' | None => w end.
Definition answered (o : hop bytes) (w : world) : option answer := option_map fst (expected o w).
Fixpoint answers (os : list (hop bytes)) (w : world) : list (option answer) :=
  match os with
  | [] => []
  | o :: os' => answered o w :: answers os' (after o w)
  end.

(** The call with the bytes of its address. *)
Definition by_bytes (mem : N -> bytes) (o : hop N) : hop bytes :=
  match o with
  | SetCalldata rs => SetCalldata rs | SetRawCalldata x => SetRawCalldata x | SetReturndata x => SetReturndata x
  | SetBalance a n => SetBalance (mem a) n | SetValue n => SetValue n | SetPrincipal a => SetPrincipal (mem a)
  | SetTarget a => SetTarget (mem a) | SetLayer n => SetLayer n | Transfer a n => Transfer (mem a) n | Log m c => Log m c
  | Reset => Reset | Calldata => Calldata | Returndata => Returndata | Value => Value | Principal => Principal
  | Target => Target | Layer => Layer | Balance => Balance | BalanceOf a => BalanceOf (mem a) | Logs => Logs
  end.
(** The pointers a call is given. *)
Definition pointers (o : hop N) : list N :=
  match o with SetBalance a _ | SetPrincipal a | SetTarget a | Transfer a _ | BalanceOf a => [a] | _ => [] end.
(** Equal addresses are the same object. *)
Definition one_object_each (mem : N -> bytes) (os : list (hop N)) : Prop :=
  forall p q, In p (flat_map pointers os) -> In q (flat_map pointers os) -> mem p = mem q -> p = q.
(** A search compares with the entry of the very object that is searched for. *)
Definition finds_itself (sees : table -> N -> N -> bool) : Prop := forall t p, sees t p p = true.

(** Calls for which the mock host does what is expected: arguments that are not arrays,
    transfers to another account, resets before any coins were given out. *)
Definition arguments (rs : list rust) : Prop := (exists ts, Forall2 typed ts rs) /\ Forall (fun r => ~ is_array r) rs.
Definition plain (o : hop bytes) (w : world) : Prop :=
  match o with
  | SetCalldata rs => arguments rs
  | Transfer dst _ => w_target w <> Some dst
  | Reset => forall a, w_balance w a = 0
  | _ => True
  end.
Fixpoint all_plain (os : list (hop bytes)) (w : world) : Prop :=
  match os with
  | [] => True
  | o :: os' => plain o w /\ all_plain os' (after o w)
  end.
Definition about_coins {A} (o : hop A) : Prop :=
  match o with SetBalance _ _ | Transfer _ _ | Balance | BalanceOf _ => True | _ => False end.
Definition coins (balance : N -> N) (accounts : list N) : N := fold_right (fun a n => balance a + n) 0 accounts.
