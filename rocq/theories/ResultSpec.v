(** What the results of the C interface mean (C113): a table of contents. *)
From Coq Require Import List NArith Bool.
From Verif Require Import Base ResultModel.
Import ListNotations.
Open Scope N_scope.

(** Content that a result can hold. *)
Definition content_fits (c : content) : Prop :=
  match c with COk => True | CErr d | CReceipt d => nlen d < 2 ^ 32 end.
(** What is seen of the contents [l] of the slots, without any memory. *)
Definition ideal_step (s : rstep) (l : list (option content)) : seen * list (option content) :=
  match s with
  | Make c _ => (SMade, l ++ [Some c])
  | Look i =>
      (match slot l i with
       | Some COk => SLook true None
       | Some (CErr _) => SLook false None
       | Some (CReceipt d) => SLook true (Some d)
       | None => SNone
       end, l)
  | Free i => (match slot l i with Some _ => SFreed | None => SNone end, set_slot i None l)
  | Unwrap i =>
      (match slot l i with
       | Some (CErr _) => SUnwrapped UPanic
       | Some _ => SUnwrapped UNothing
       | None => SNone
       end, set_slot i None l)
  end.
Fixpoint ideal_run (ss : list rstep) (l : list (option content)) : list seen * list (option content) :=
  match ss with
  | [] => ([], l)
  | s :: ss' => let (x, l1) := ideal_step s l in let (xs, l2) := ideal_run ss' l1 in (x :: xs, l2)
  end.
(** The steps of a client that never unwraps a receipt, in a world whose allocator gives no
    address that is null, dangling or in use. *)
Fixpoint proper_use (ss : list rstep) (st : memory * list (option svm_result)) (l : list (option content)) : Prop :=
  match ss with
  | [] => True
  | s :: ss' =>
      match s with
      | Make c p => content_fits c /\ 1 < p /\ fst st p = None
      | Unwrap i => forall d, slot l i <> Some (CReceipt d)
      | _ => True
      end /\
      forall x st', result_step s st = Some (x, st') -> proper_use ss' st' (snd (ideal_step s l))
  end.
