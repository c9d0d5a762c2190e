(** Model of the results of the C interface (crates/host/runtime-ffi/src/result.rs): who owns
    the bytes a call returned, and when they are freed.

    Simplifications:
    - memory is a map from addresses to the blocks that are allocated; the address of a new block
      is an argument (the allocator's choice);
    - [None] is undefined behaviour: freeing or reading a block that is not allocated, or freeing
      it with another size;
    - the allocator accepts the null pointer (as [free] of C does): [Vec::from_raw_parts] of a
      null pointer, which the language does not define, is taken for that. *)
From Coq Require Import List NArith Bool.
From Verif Require Import Base.
Import ListNotations.
Open Scope N_scope.

Definition memory := N -> option bytes.
Definition empty_memory : memory := fun _ => None.
Definition store_at (h : memory) (p : N) (b : option bytes) : memory := fun q => if q =? p then b else h q.

(** A vector of bytes: address, length; the capacity is the length.  Without capacity nothing is
    allocated and the address is dangling, but not null. *)
Definition dangling : N := 1.
(** [Vec::with_capacity(data.len())], [extend_from_slice], [leak], [as_mut_ptr]
    (result.rs:41-47, 54-60). *)
Definition leak (h : memory) (p : N) (data : bytes) : N * memory :=
  match data with [] => (dangling, h) | _ => (p, store_at h p (Some data)) end.
(** Dropping a [Vec::from_raw_parts(p, n, n)] (result.rs:126-131). *)
Definition drop_vec (h : memory) (p n : N) : option memory :=
  if n =? 0 then Some h
  else if p =? 0 then Some h
  else match h p with
       | Some b => if nlen b =? n then Some (store_at h p None) else None
       | None => None
       end.
(** [slice::from_raw_parts(p, n)] read (result.rs:80-82, 92-95). *)
Definition read_slice (h : memory) (p n : N) : option bytes :=
  if n =? 0 then Some []
  else match h p with
       | Some b => if n <=? nlen b then Some (firstn (N.to_nat n) b) else None
       | None => None
       end.

(** result.rs:25-29 [svm_result_t] *)
Record svm_result := mkResult { rs_receipt : N; rs_error : N; rs_size : N }.
(** result.rs:33-37 [OK] *)
Definition result_ok : svm_result := mkResult 0 0 0.
(** result.rs:40-49 [new_error], 52-61 [new_receipt]; the size must fit u32 ([Panic], after the
    block was leaked). *)
Definition new_error (h : memory) (p : N) (data : bytes) : outcome unit svm_result * memory :=
  let (q, h') := leak h p data in
  (if nlen data <=? 4294967295 then Ok (mkResult 0 q (nlen data)) else Panic, h').
Definition new_receipt (h : memory) (p : N) (data : bytes) : outcome unit svm_result * memory :=
  let (q, h') := leak h p data in
  (if nlen data <=? 4294967295 then Ok (mkResult q 0 (nlen data)) else Panic, h').
(** result.rs:109-111 [is_ok], 121-123 [is_err] *)
Definition is_ok (r : svm_result) : bool := rs_error r =? 0.
Definition is_err (r : svm_result) : bool := negb (is_ok r).
(** result.rs:86-97 [receipt] *)
Definition receipt_of (h : memory) (r : svm_result) : option (option bytes) :=
  if rs_receipt r =? 0 then Some None
  else match read_slice h (rs_receipt r) (rs_size r) with Some b => Some (Some b) | None => None end.
(** result.rs:126-134 [Drop], also c_api.rs:38-41 [svm_free_result]: both vectors, the error's
    last (locals are dropped in reverse order). *)
Definition drop_result (h : memory) (r : svm_result) : option memory :=
  match drop_vec h (rs_receipt r) (rs_size r) with
  | Some h' => drop_vec h' (rs_error r) (rs_size r)
  | None => None
  end.
(** result.rs:65-79 [unwrap]: [self] is dropped on return.  A vector that is returned is its
    address and length.  [Panic] on an error, whose bytes have been read (and must be UTF-8; if
    not the panic is another one). *)
Inductive unwrapped := UNothing | UVec (p n : N) | UPanic.
Definition unwrap_result (h : memory) (r : svm_result) : option (unwrapped * memory) :=
  let u := if (rs_error r =? 0) && (rs_receipt r =? 0) then Some UNothing
           else if rs_error r =? 0 then Some (UVec (rs_receipt r) (rs_size r))
           else match read_slice h (rs_error r) (rs_size r) with Some _ => Some UPanic | None => None end in
  match u, drop_result h r with
  | Some u, Some h' => Some (u, h')
  | _, _ => None
  end.
(** result.rs:23 [derive(Clone)] *)
Definition clone_result (r : svm_result) : svm_result := r.

(** What a client does with results: each is in a slot until it is given back. *)
Inductive content := COk | CErr (data : bytes) | CReceipt (data : bytes).
Inductive rstep :=
| Make (c : content) (p : N)    (* a call returns; the allocator would choose [p] *)
| Look (i : nat)                (* [is_ok] and [receipt] *)
| Free (i : nat)                (* [svm_free_result], or going out of scope *)
| Unwrap (i : nat).
Inductive seen := SMade | SPanic | SLook (ok : bool) (r : option bytes) | SFreed | SUnwrapped (u : unwrapped) | SNone.

Fixpoint set_slot {A} (i : nat) (x : A) (l : list A) : list A :=
  match i, l with
  | _, [] => []
  | O, _ :: l => x :: l
  | S i, y :: l => y :: set_slot i x l
  end.
Definition slot {A} (l : list (option A)) (i : nat) : option A :=
  match nth_error l i with Some (Some x) => Some x | _ => None end.

Definition result_step (s : rstep) (st : memory * list (option svm_result)) : option (seen * (memory * list (option svm_result))) :=
  let (h, l) := st in
  match s with
  | Make COk _ => Some (SMade, (h, l ++ [Some result_ok]))
  | Make (CErr d) p =>
      match new_error h p d with
      | (Ok r, h') => Some (SMade, (h', l ++ [Some r]))
      | (_, h') => Some (SPanic, (h', l ++ [None]))
      end
  | Make (CReceipt d) p =>
      match new_receipt h p d with
      | (Ok r, h') => Some (SMade, (h', l ++ [Some r]))
      | (_, h') => Some (SPanic, (h', l ++ [None]))
      end
  | Look i =>
      match slot l i with
      | Some r => match receipt_of h r with Some v => Some (SLook (is_ok r) v, (h, l)) | None => None end
      | None => Some (SNone, (h, l))
      end
  | Free i =>
      match slot l i with
      | Some r => match drop_result h r with Some h' => Some (SFreed, (h', set_slot i None l)) | None => None end
      | None => Some (SNone, (h, l))
      end
  | Unwrap i =>
      match slot l i with
      | Some r => match unwrap_result h r with Some (u, h') => Some (SUnwrapped u, (h', set_slot i None l)) | None => None end
      | None => Some (SNone, (h, l))
      end
  end.
Fixpoint result_run (ss : list rstep) (st : memory * list (option svm_result)) : option (list seen * (memory * list (option svm_result))) :=
  match ss with
  | [] => Some ([], st)
  | s :: ss' =>
      match result_step s st with
      | Some (x, st1) => match result_run ss' st1 with Some (xs, st2) => Some (x :: xs, st2) | None => None end
      | None => None
      end
  end.
