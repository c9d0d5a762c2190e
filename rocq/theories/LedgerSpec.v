(** Specification of the balance sheet of a history: besides the coins issued, the coins that
    appear when an account pays itself, and the coins that are lost. *)
From Coq Require Import List NArith.
From Verif Require Import Base CodecModel CodecSpec StorageModel GlobalModel GlobalSpec RuntimeModel RuntimeSpec SupplySpec.
Import ListNotations.
Open Scope N_scope.

(** The coins an API call brings into the world: what it issues, and the amount an account
    paid itself when that transfer succeeded. *)
Definition made_by (e : env) (o : rop) (g : gstate) : N :=
  match o with
  | TTransfer src dst n =>
      if list_eq_dec N.eq_dec src dst then match fst (transfer e src dst n g) with Ok _ => n | _ => 0 end else 0
  | _ => issued_by e o g
  end.
Fixpoint made (e : env) (en : engine) (ops : list rop) (gc : gstate * price_cache) : N :=
  match ops with
  | [] => 0
  | o :: r => made_by e o (fst gc) + made e en r (run_rop e en o gc)
  end.

(** [n] coins are lost in the call [o].
    - Creating an account loses what the account at that address owned, when it succeeds.
    - A spawn loses what the account at the template's address owned, unless it changed nothing.
    - An account paying itself loses the amount when the transfer aborts because its balance
      would overflow; a transfer that aborts for another reason changes nothing.
    - Every other call loses nothing. *)
Definition loses (e : env) (en : engine) (o : rop) (gc : gstate * price_cache) (n : N) : Prop :=
  let g := fst gc in
  let g' := fst (run_rop e en o gc) in
  match o with
  | TCreate a name t b k =>
      match fst (account_create e a name t b k g) with Ok _ => n = balance e g a | _ => g' = g /\ n = 0 end
  | TSpawn _ m =>
      (g' = g /\ n = 0)
      \/ exists sp, decoded dec_spawn m = Some sp /\ n = balance e g (account_addr e (sp_template sp))
  | TTransfer src dst amount =>
      match fst (transfer e src dst amount g) with
      | Ok _ => n = 0
      | _ => (g' = g /\ n = 0)
             \/ (src = dst /\ n = amount /\ amount <= balance e g src /\ u64_max < balance e g src + amount)
      end
  | _ => n = 0
  end.
(** [n] coins are lost in a history of calls. *)
Fixpoint loses_over (e : env) (en : engine) (ops : list rop) (gc : gstate * price_cache) (n : N) : Prop :=
  match ops with
  | [] => n = 0
  | o :: r => exists n1 n2, loses e en o gc n1 /\ loses_over e en r (run_rop e en o gc) n2 /\ n = n1 + n2
  end.

(** Not a rewind. *)
Definition no_rewind (o : rop) : Prop := match o with TRewind _ => False | _ => True end.
