(** Specification of the wasm buffers (C49): a buffer is a name for a byte string of fixed
    length. *)
From Coq Require Import List NArith ZArith Bool.
From Verif Require Import Base Text CodecModel BufferModel.
Import ListNotations.
Open Scope N_scope.

(** The buffers a client holds: pointer and contents. *)
Definition store := list (N * bytes).
Fixpoint content (p : N) (s : store) : option bytes :=
  match s with
  | [] => None
  | (q, d) :: s' => if p =? q then Some d else content p s'
  end.

(** Allocators never return memory that is in use, and stay in the address space. *)
Definition apart (x y : N * N) : Prop := fst x + snd x <= fst y \/ fst y + snd y <= fst x.
Fixpoint packed (l : list (N * N)) : Prop :=
  match l with
  | [] => True
  | x :: l' => Forall (apart x) l' /\ packed l'
  end.
Definition allocates (al : allocator) : Prop :=
  forall l n p, packed l -> 0 < n -> al l n = Some p -> Forall (apart (p, n)) l /\ p + n <= u32_max + 1.

(** Memory in use for a store: eight bytes more than the contents. *)
Definition footprint (s : store) : list (N * N) := map (fun '(p, d) => (p, nlen d + 8)) s.

(** A client that keeps the rules: live pointers only, no access beyond the contents. *)
Definition proper (s : store) (o : client_op) : Prop :=
  match o with
  | KAlloc _ => True
  | KFree p | KLength p | KCall _ p => content p s <> None
  | KWrite p off bs => exists d, content p s = Some d /\ off + nlen bs <= nlen d
  | KRead p off n => exists d, content p s = Some d /\ off + n <= nlen d
  end.

(** New memory, not in use so far, where the allocator says; or a trap when there is none.  No
    block exceeds [isize::MAX] of the 32-bit machine. *)
Definition granted (al : allocator) (s : store) (d : bytes) (p : N) : Prop :=
  content p s = None /\ nlen d + 8 <= 2147483647 /\ al (footprint s) (nlen d + 8) = Some p.
Definition news (al : allocator) (d : bytes) (s : store) (r : client_reply) (s' : store) : Prop :=
  (exists p, r = YPtr p /\ granted al s d p /\ s' = (p, d) :: s)
  \/ (r = YTrap /\ s' = s /\ (2147483647 < nlen d + 8 \/ al (footprint s) (nlen d + 8) = None)).

(** What each operation must do. *)
Definition required (al : allocator) (s : store) (o : client_op) (r : client_reply) (s' : store) : Prop :=
  match o with
  | KAlloc n =>
    if (n <? 0)%Z then r = YTrap /\ s' = s else news al (repeat 0 (Z.to_nat n)) s r s'
  | KFree p => r = YDone /\ s' = filter (fun x => negb (fst x =? p)) s
  | KLength p => exists d, content p s = Some d /\ r = YNum (nlen d) /\ s' = s
  | KWrite p off bs =>
    exists a b c, content p s = Some (a ++ b ++ c) /\ nlen a = off /\ nlen b = nlen bs /\ r = YDone
      /\ s' = map (fun x => if fst x =? p then (p, a ++ bs ++ c) else x) s
  | KRead p off n =>
    exists a b c, content p s = Some (a ++ b ++ c) /\ nlen a = off /\ nlen b = n /\ r = YBytes b /\ s' = s
  | KCall f p =>
    exists d, content p s = Some d /\
    if utf8_valid d then
      match f d with
      | Ok out => news al (1 :: out) s r s'
      | Err text => news al (0 :: text) s r s'
      | Panic => r = YTrap /\ s' = s
      end
    else r = YTrap /\ s' = s
  end.

(** A history in which every step is as required. *)
Inductive history (al : allocator) : store -> list (client_op * client_reply) -> store -> Prop :=
| H_nil s : history al s [] s
| H_cons s o r s1 l s2 :
    proper s o -> required al s o r s1 -> history al s1 l s2 -> history al s ((o, r) :: l) s2.
(** The client keeps the rules along the way, whatever it gets. *)
Fixpoint keeps_rules (al : allocator) (s : store) (l : list (client_op * client_reply)) : Prop :=
  match l with
  | [] => True
  | (o, r) :: l' => proper s o /\ forall s1, required al s o r s1 -> keeps_rules al s1 l'
  end.
