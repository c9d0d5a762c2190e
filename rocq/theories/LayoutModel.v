(** Model of crates/host/layout/src/{fixed,var,lib}.rs. *)
From Coq Require Import List NArith Bool.
From Verif Require Import Base.
Import ListNotations.
Open Scope N_scope.

(** layout/src/var.rs:6-11 [RawVar]. *)
Record raw_var := mkVar { rv_id : N; rv_offset : N; rv_size : N }.

(** layout/src/fixed.rs:5-8 [FixedLayout]. *)
Record fixed_layout := mkLayout { fl_first : option N; fl_vars : list raw_var }.

(** layout/src/fixed.rs:10-17 [Default]. *)
Definition default_layout : fixed_layout := mkLayout None [].

(** layout/src/fixed.rs:20-28 [FixedLayout::new]. *)
Definition layout_new (vars : list raw_var) : fixed_layout :=
  match vars with
  | [] => default_layout
  | v :: _ => mkLayout (Some (rv_id v)) vars
  end.

(** u32 addition of a debug build: [None] = overflow panic. *)
Definition add_u32 (a b : N) : option N := if a + b <=? u32_max then Some (a + b) else None.

(** layout/src/fixed.rs:33-41, the loop of [from_byte_sizes]. *)
Fixpoint sizes_loop (first i offset : N) (sizes : list N) : option (list raw_var) :=
  match sizes with
  | [] => Some []
  | s :: r =>
      let? id := add_u32 first i in
      let? offset' := add_u32 offset s in
      let? vars := sizes_loop first (i + 1) offset' r in
      Some (mkVar id offset s :: vars)
  end.

(** layout/src/fixed.rs:30-47 [from_byte_sizes]; [None] = overflow panic. *)
Definition from_byte_sizes (first : N) (sizes : list N) : option fixed_layout :=
  let? vars := sizes_loop first 0 0 sizes in
  Some (mkLayout (Some first) vars).

(** layout/src/fixed.rs:103-111 [var_index]; [None] = panic. *)
Definition var_index (l : fixed_layout) (id : N) : option nat :=
  let? first := fl_first l in
  if id <? first then None
  else
    let index := N.to_nat (id - first) in
    if Nat.ltb index (length (fl_vars l)) then Some index else None.

(** layout/src/fixed.rs:63-67 [get]; [None] = panic. *)
Definition layout_get (l : fixed_layout) (id : N) : option raw_var :=
  let? i := var_index l id in nth_error (fl_vars l) i.

(** layout/src/fixed.rs:56-60 [try_get]: outer [None] = panic, inner = Rust's result. *)
Definition layout_try_get (l : fixed_layout) (id : N) : option (option raw_var) :=
  let? i := var_index l id in Some (nth_error (fl_vars l) i).

(** layout/src/fixed.rs:87-89 [len], 93-95 [is_empty]. *)
Definition layout_len (l : fixed_layout) : N := nlen (fl_vars l).
