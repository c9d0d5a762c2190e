(** What the SDK's vectors, numbers and storage variables are expected to do, stated
    without the model's memory cells and loops. *)
From Coq Require Import String List NArith ZArith Arith Bool Lia.
From Verif Require Import Base Text SdkModel.
Import ListNotations.
Open Scope list_scope.
Open Scope N_scope.

(** ** A bounded stack *)
Inductive vec_op (A : Type) : Type :=
| Push (x : A)
| Pop
| Clear
| Length
| Slice
| Iterate (n : nat)   (** a new iterator, [n] times [next] *)
| Consume (n : nat).  (** the same with the consuming iterator, on a copy *)
Arguments Push {A} _.
Arguments Pop {A}.
Arguments Clear {A}.
Arguments Length {A}.
Arguments Slice {A}.
Arguments Iterate {A} _.
Arguments Consume {A} _.
Inductive answer (A : Type) : Type :=
| Done
| Item (x : A)
| Count (n : N)
| Items (l : list A)
| Nexts (l : list (option A)).
Arguments Done {A}.
Arguments Item {A} _.
Arguments Count {A} _.
Arguments Items {A} _.
Arguments Nexts {A} _.

(** The operation on the vector; [None] is an abort. *)
Fixpoint nexts {A} (next : N -> option (option A * N)) (n : nat) (pos : N) : option (list (option A)) :=
  match n with
  | O => Some []
  | S n' => let? (x, pos') := next pos in let? r := nexts next n' pos' in Some (x :: r)
  end.
Definition vec_apply {A} (v : fvec A) (o : vec_op A) : option (answer A * fvec A) :=
  match o with
  | Push x => let? v' := vec_push v x in Some (Done, v')
  | Pop => let? (x, v') := vec_pop v in Some (Item x, v')
  | Clear => Some (Done, vec_clear v)
  | Length => Some (Count (fv_len v), v)
  | Slice => let? l := vec_as_slice v in Some (Items l, v)
  | Iterate n => let? l := nexts (iter_next v) n 0 in Some (Nexts l, v)
  | Consume n => let? l := nexts (into_iter_next v) n 0 in Some (Nexts l, v)
  end.
(** The operation on a stack of at most [cap] elements, the last one on top. *)
Definition stack_apply {A} (cap : N) (l : list A) (o : vec_op A) : option (answer A * list A) :=
  match o with
  | Push x => if nlen l <? cap then Some (Done, l ++ [x]) else None
  | Pop => match rev l with [] => None | x :: r => Some (Item x, rev r) end
  | Clear => Some (Done, [])
  | Length => Some (Count (nlen l), l)
  | Slice => Some (Items l, l)
  | Iterate n | Consume n => Some (Nexts (map (nth_error l) (seq 0 n)), l)
  end.
(** The answers of a sequence of operations, up to the first abort. *)
Fixpoint answers {A S} (apply : S -> vec_op A -> option (answer A * S)) (s : S) (os : list (vec_op A)) : list (option (answer A)) :=
  match os with
  | [] => []
  | o :: os' =>
      match apply s o with
      | None => [None]
      | Some (a, s') => Some a :: answers apply s' os'
      end
  end.

(** ** Numerals *)
(** [t] is the decimal numeral of [n]: ASCII digits, most significant first, without
    leading zeros. *)
Definition numeral (n : N) (t : bytes) : Prop :=
  exists ds, t = map (fun d => 48 + d) ds /\ canonical_numeral ds /\ digits_value ds = n.
(** The string [s] was built and shows the text [t]. *)
Definition shows (s : option sstring) (t : bytes) : Prop :=
  exists s', s = Some s' /\ string_bytes s' = Some t.

(** ** Storage *)
(** How many variables a field takes, and the bytes of each. *)
Definition field_cells (f : field_type) : N := match f with FPrim _ => 1 | FArray _ n => n end.
Definition field_prim (f : field_type) : prim_type := match f with FPrim t => t | FArray t _ => t end.
(** The bytes a value takes. *)
Definition type_size (t : prim_type) : N :=
  match t with
  | TBool => 1 | TAmount => 8 | TAddress => 20
  | TI8 => 1 | TU8 => 1 | TI16 => 2 | TU16 => 2 | TI32 => 4 | TU32 => 4 | TI64 => 8 | TU64 => 8
  end.
(** The sizes of all variables, in order: what a deployed template declares. *)
Definition cell_sizes (fs : list field_type) : list N :=
  flat_map (fun f => repeat (type_size (field_prim f)) (N.to_nat (field_cells f))) fs.
(** The number of variables and of bytes of a list of fields. *)
Definition count_cells (fs : list field_type) : N := fold_right (fun f n => field_cells f + n) 0 fs.
Definition count_bytes (fs : list field_type) : N :=
  fold_right (fun f n => type_size (field_prim f) * field_cells f + n) 0 fs.
(** Variable [id] and byte [b] belong to the field whose first cell is [v]. *)
Definition owns_id (v : svar) (id : N) : Prop := sv_id v <= id < sv_id v + field_cells (sv_type v).
Definition owns_byte (v : svar) (b : N) : Prop :=
  sv_offset v <= b < sv_offset v + sv_byte_count v * field_cells (sv_type v).

(** ** Strings *)
(** Building a string out of strings, with room for [room] bytes. *)
Fixpoint push_all (sb : fvec N) (ss : list sstring) : option (fvec N) :=
  match ss with
  | [] => Some sb
  | s :: ss' => let? sb' := push_str sb s in push_all sb' ss'
  end.
Definition built (room : N) (ss : list sstring) : option sstring :=
  let? sb := push_all (vec_with_capacity room) ss in new_unchecked sb.
Definition is_ascii (t : bytes) : Prop := Forall (fun b => b < 128) t.
