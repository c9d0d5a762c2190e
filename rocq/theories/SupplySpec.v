(** Specification of the money supply over whole histories: which API calls bring coins into
    the world, and how many. *)
From Coq Require Import List NArith.
From Verif Require Import Base CodecModel CodecSpec StorageModel GlobalModel GlobalSpec RuntimeModel RuntimeSpec.
Import ListNotations.
Open Scope N_scope.

(** The coins an API call brings into the world: the amount of a balance increase that
    succeeded, and the starting balance of an account whose creation succeeded.  Deploying,
    spawning, verifying, calling, transferring, committing and rewinding bring none. *)
Definition issued_by (e : env) (o : rop) (g : gstate) : N :=
  match o with
  | TIncrease a n => match fst (increase_balance e a n g) with Ok _ => n | _ => 0 end
  | TCreate a name t b k => match fst (account_create e a name t b k g) with Ok _ => b | _ => 0 end
  | _ => 0
  end.

(** The prices a new runtime remembers. *)
Definition no_prices : price_cache := [].

(** The coins a history of API calls brings into the world. *)
Fixpoint issued (e : env) (en : engine) (ops : list rop) (gc : gstate * price_cache) : N :=
  match ops with
  | [] => 0
  | o :: r => issued_by e o (fst gc) + issued e en r (run_rop e en o gc)
  end.

Fixpoint run_rops (e : env) (en : engine) (ops : list rop) (gc : gstate * price_cache) : gstate * price_cache :=
  match ops with [] => gc | o :: r => run_rops e en r (run_rop e en o gc) end.

(** Not a transfer from an account to itself. *)
Definition no_self (o : rop) : Prop :=
  match o with TTransfer src dst _ => src <> dst | _ => True end.
(** Nor a rewind. *)
Definition forward (o : rop) : Prop :=
  no_self o /\ match o with TRewind _ => False | _ => True end.

(** No account lives at that address. *)
Definition vacant (e : env) (g : gstate) (a : bytes) : Prop :=
  forall b, fst (account_balance e a g) <> Ok b.

(** The call does not create an account at an address where one lives already.  A spawn
    creates its account at an address computed from the template. *)
Definition fresh_place (e : env) (o : rop) (g : gstate) : Prop :=
  match o with
  | TCreate a _ _ _ _ => vacant e g a
  | TSpawn _ m => forall sp, decoded dec_spawn m = Some sp -> vacant e g (account_addr e (sp_template sp))
  | _ => True
  end.
Fixpoint all_fresh (e : env) (en : engine) (ops : list rop) (gc : gstate * price_cache) : Prop :=
  match ops with
  | [] => True
  | o :: r => fresh_place e o (fst gc) /\ all_fresh e en r (run_rop e en o gc)
  end.
