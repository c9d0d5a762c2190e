(** What the graph properties mean, independently of the algorithms. *)
From Coq Require Import List NArith Bool Relations.
From Verif Require Import Base GraphModel.
Import ListNotations.
Open Scope N_scope.

(** A graph as its user describes it: nodes and edges added in some order. *)
Inductive graph_op : Type := AddNode (l : N) | AddEdge (source dest : N).

(** The edges and nodes the user asked for. *)
Definition asked_edge (ops : list graph_op) (a b : N) : Prop := In (AddEdge a b) ops.
Definition asked_node (ops : list graph_op) (x : N) : Prop :=
  In (AddNode x) ops \/ exists y, In (AddEdge x y) ops \/ In (AddEdge y x) ops.

(** Running the builder calls (call_graph/builder.rs). *)
Fixpoint build_calls (ops : list graph_op) (g : graph unit) : option (graph unit) :=
  match ops with
  | [] => Some g
  | AddNode l :: r => build_calls r (add_target l g)
  | AddEdge a b :: r => let? g := add_call a b g in build_calls r g
  end.

Definition no_self_edges (ops : list graph_op) : Prop := forall x, ~ asked_edge ops x x.

(** One or more edges. *)
Inductive leads (E : N -> N -> Prop) : N -> N -> Prop :=
| leads_one a b : E a b -> leads E a b
| leads_step a b c : E a b -> leads E b c -> leads E a c.

Definition acyclic (E : N -> N -> Prop) : Prop := forall x, ~ leads E x x.

(** A list in which every node occurs once and every edge goes forward. *)
Definition topological (node : N -> Prop) (E : N -> N -> Prop) (l : list N) : Prop :=
  NoDup l /\ (forall x, In x l <-> node x) /\
  (forall i j a b, nth_error l i = Some a -> nth_error l j = Some b -> E a b -> (i < j)%nat).

(** [walk E a b l]: [l] is a path from [a] to [b] along edges, both included. *)
Inductive walk (E : N -> N -> Prop) : N -> N -> list N -> Prop :=
| walk_here a : walk E a a [a]
| walk_next a b c l : E a b -> walk E b c l -> walk E a c (a :: l).

(** A closed chain: a walk with at least one edge that comes back to its first node. *)
Definition closed_chain (E : N -> N -> Prop) (l : list N) : Prop :=
  exists x y r, l = x :: y :: r /\ walk E x x l.

(** A weighted graph as its user describes it (tests of weight.rs, pricing/cfg.rs:28-58):
    labelled weights, then edges. *)
Fixpoint build_nodes (ws : list (N * N)) (g : wgraph) : wgraph :=
  match ws with
  | [] => g
  | (l, w) :: r => build_nodes r (update_data l (set_weight w) (get_or_create default_weight l g))
  end.
Fixpoint build_edges (es : list (N * N)) (g : wgraph) : option wgraph :=
  match es with
  | [] => Some g
  | (a, b) :: r => let? g := add_edge default_weight a b g in build_edges r g
  end.
Definition build_weighted (ws es : list (N * N)) : option wgraph := build_edges es (build_nodes ws []).

(** The user's edges and weights. *)
Definition edge_in (es : list (N * N)) (a b : N) : Prop := In (a, b) es.
Fixpoint weight_in (ws : list (N * N)) (x : N) : N :=
  match ws with
  | [] => 0
  | (l, w) :: r => if l =? x then w else weight_in r x
  end.
Definition walk_weight (ws : list (N * N)) (l : list N) : N :=
  fold_right (fun x s => weight_in ws x + s) 0 l.

(** Edges join declared nodes, no self edge, each node declared once. *)
Definition well_declared (ws es : list (N * N)) : Prop :=
  NoDup (map fst ws) /\
  forall a b, In (a, b) es -> a <> b /\ In a (map fst ws) /\ In b (map fst ws).

(** The nodes the end has to wait for: those from which a walk leads to the end without
    coming through the start. *)
Definition waits_for (E : N -> N -> Prop) (start end_ b : N) : Prop :=
  b <> start /\ (b = end_ \/ leads (fun x y => E x y /\ y <> start) b end_).
