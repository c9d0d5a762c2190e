(** The payments a contract asks for during a call, as a specification of what the call does
    to the balances. *)
From Coq Require Import List NArith Bool.
From Verif Require Import Base CodecModel CodecSpec RuntimeModel RuntimeSpec ObserveSpec.
Import ListNotations.
Open Scope N_scope.

(** Who pays, who is paid, and how much. *)
Definition payment := (bytes * bytes * N)%type.

(** The payments of at least one coin, in order. *)
Definition payments_of (h : list event) : list payment :=
  flat_map (fun c => match c with
                     | (HTransfer src dst n, mem) => if n =? 0 then [] else [(slice mem src 20, slice mem dst 20, n)]
                     | _ => []
                     end) h.
(** All host calls and all payments of a session. *)
Definition session_events (s : session) : list event := ss_start s ++ ss_alloc s ++ ss_main s.
Definition session_payments (s : session) : list payment := payments_of (session_events s).

(** The balances after a payment.  An account that pays itself ends up with more. *)
Definition pay (b : bytes -> N) (p : payment) : bytes -> N :=
  let '(src, dst, n) := p in
  fun x => if list_eq_dec N.eq_dec x dst then b dst + n
           else if list_eq_dec N.eq_dec x src then b src - n else b x.
Definition pay_all (b : bytes -> N) (ps : list payment) : bytes -> N := fold_left pay ps b.

(** Each payment is covered when it is made and does not overflow the receiver. *)
Fixpoint covered (b : bytes -> N) (ps : list payment) : Prop :=
  match ps with
  | [] => True
  | (src, dst, n) :: r => 0 < n <= b src /\ b dst + n <= u64_max /\ covered (pay b (src, dst, n)) r
  end.

(** The coins paid by and to an account, leaving out what it pays itself. *)
Fixpoint paid_by (x : bytes) (ps : list payment) : N :=
  match ps with
  | [] => 0
  | (src, dst, n) :: r =>
      (if list_eq_dec N.eq_dec x src then if list_eq_dec N.eq_dec x dst then 0 else n else 0) + paid_by x r
  end.
Fixpoint paid_to (x : bytes) (ps : list payment) : N :=
  match ps with
  | [] => 0
  | (src, dst, n) :: r => (if list_eq_dec N.eq_dec x dst then n else 0) + paid_to x r
  end.
