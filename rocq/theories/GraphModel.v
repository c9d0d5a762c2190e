(** Model of crates/host/gas/src/graph/*.rs and call_graph/*.rs: directed graphs, the
    topological sort, cycle search and the maximum-weight path.

    Labels (u32 function indexes, usize block numbers) are [N].  A node reference
    (Rc<RefCell<Node>>) is the label of the node; the node is looked up in the graph each
    time it is read.  [None] is a panic.  Arithmetic on usize follows a debug build. *)
From Coq Require Import List NArith Bool.
From Verif Require Import Base.
Import ListNotations.
Open Scope N_scope.

(** graph/node.rs:19-28 [Node].  The two IndexSets are duplicate-free lists in insertion
    order.  Removal keeps the order of the others, while IndexSet::remove moves the last
    element: no code looks at the order of a set it has removed something from. *)
Record node (D : Type) := mkNode {
  n_label : N; n_data : D; n_in : list N; n_out : list N }.
Arguments mkNode {D} _ _ _ _.
Arguments n_label {D} _.
Arguments n_data {D} _.
Arguments n_in {D} _.
Arguments n_out {D} _.

(** graph/mod.rs:33-39 [Graph]: an IndexMap from labels to nodes, in insertion order. *)
Definition graph (D : Type) := list (node D).

(** IndexSet::insert and IndexSet::remove. *)
Definition set_add (x : N) (l : list N) : list N := if existsb (N.eqb x) l then l else l ++ [x].
Definition set_del (x : N) (l : list N) : list N := filter (fun y => negb (x =? y)) l.

Section Graphs.
Context {D : Type}.
Implicit Types g : graph D.

(** graph/mod.rs:94-98 [try_get_node]. *)
Definition g_get (l : N) g : option (node D) := find (fun n => n_label n =? l) g.

(** Mutation of one node through its RefCell. *)
Definition g_update (l : N) (f : node D -> node D) g : graph D :=
  map (fun n => if n_label n =? l then f n else n) g.

(** graph/node.rs:80-97 *)
Definition add_out (x : N) (n : node D) := mkNode (n_label n) (n_data n) (n_in n) (set_add x (n_out n)).
Definition add_in (x : N) (n : node D) := mkNode (n_label n) (n_data n) (set_add x (n_in n)) (n_out n).
Definition del_out (x : N) (n : node D) := mkNode (n_label n) (n_data n) (n_in n) (set_del x (n_out n)).
Definition del_in (x : N) (n : node D) := mkNode (n_label n) (n_data n) (set_del x (n_in n)) (n_out n).
Definition set_data (d : D) (n : node D) := mkNode (n_label n) d (n_in n) (n_out n).

(** graph/node.rs:65-77, 100-112 *)
Definition has_incoming (n : node D) : bool := match n_in n with [] => false | _ => true end.
Definition has_outgoing (n : node D) : bool := match n_out n with [] => false | _ => true end.
Definition is_source (n : node D) : bool := negb (has_incoming n).
Definition is_sink (n : node D) : bool := negb (has_outgoing n).
Definition is_isolated (n : node D) : bool := is_sink n && is_source n.

(** graph/builder.rs:54-64 [get_or_create_mut], 32-34 [add_node]; [d] is D::default(). *)
Definition get_or_create (d : D) (l : N) g : graph D :=
  match g_get l g with Some _ => g | None => g ++ [mkNode l d [] []] end.

(** graph/builder.rs:38-43 [add_edge], 66-80.  A self edge panics: by the debug_assert of
    line 39, and in a release build because hashing the node of line 71 borrows the cell
    that line 70 has borrowed mutably. *)
Definition add_edge (d : D) (source dest : N) g : option (graph D) :=
  if source =? dest then None
  else
    let g := get_or_create d source (get_or_create d dest g) in
    let g := g_update source (add_out dest) g in
    let g := get_or_create d dest (get_or_create d source g) in
    Some (g_update dest (add_in source) g).

(** graph/mod.rs:61-67 [remove_edge] *)
Definition remove_edge (source dest : N) g : option (graph D) :=
  let? _ := g_get source g in
  let? _ := g_get dest g in
  Some (g_update dest (del_in source) (g_update source (del_out dest) g)).

(** graph/mod.rs:52-58 [remove_node]: removes the outgoing edges of a node. *)
Fixpoint remove_edges (source : N) (dests : list N) g : option (graph D) :=
  match dests with
  | [] => Some g
  | d :: ds => let? g := remove_edge source d g in remove_edges source ds g
  end.
Definition remove_node (l : N) g : option (graph D) :=
  let? n := g_get l g in remove_edges l (n_out n) g.

(** graph/mod.rs:70-72, 75-81 *)
Definition node_count g : N := nlen g.
Definition source_nodes g : list N := map n_label (filter is_source g).

(** The number of edges, only used as fuel. *)
Definition edge_count g : nat := fold_right (fun n k => (length (n_out n) + k)%nat) O g.

(** The loop over the outgoing nodes of [source] in sort.rs:45-53 and weight.rs:37-46:
    [relax] (nothing in sort.rs, line 38 in weight.rs), remove the edge, push the
    destination when it has become a source.  [queued] is the Vec with its top first. *)
Fixpoint visit_out (relax : N -> N -> graph D -> option (graph D))
    (source : N) (dests : list N) g (queued : list N) : option (graph D * list N) :=
  match dests with
  | [] => Some (g, queued)
  | dest :: ds =>
      let? g := relax dest source g in
      let? g := remove_edge source dest g in
      let? n := g_get dest g in
      visit_out relax source ds g (if is_source n then dest :: queued else queued)
  end.

(** The while loop of sort.rs:40-54 and weight.rs:30-47; [sorted] lists the popped nodes.
    Fuel: one unit per popped node. *)
Fixpoint sweep (relax : N -> N -> graph D -> option (graph D))
    (fuel : nat) g (queued sorted : list N) : option (graph D * list N) :=
  match queued with
  | [] => Some (g, sorted)
  | source :: q =>
      match fuel with
      | O => None
      | S fuel =>
          let? n := g_get source g in
          let? (g, q) := visit_out relax source (n_out n) g q in
          sweep relax fuel g q (sorted ++ [source])
      end
  end.
Definition sweep_fuel g (queued : list N) : nat := (edge_count g + length queued)%nat.

(** sort.rs:68-75 [has_edges] *)
Definition has_edges g : bool := existsb (fun n => negb (is_isolated n)) g.

(** sort.rs:123-157 [recur_find_cycle].  [path] is the Vec [cycle], last label first; the
    set [visited] always holds exactly the labels of [cycle].  The result is [Some cycle]
    when a label is met twice.  Fuel bounds the recursion depth. *)
Fixpoint recur_find_cycle (fuel : nat) g (current : N) (path : list N) : option (option (list N)) :=
  if existsb (N.eqb current) path then Some (Some (rev (current :: path)))
  else
    match fuel with
    | O => None
    | S fuel =>
        let? n := g_get current g in
        (fix loop (nexts : list N) : option (option (list N)) :=
           match nexts with
           | [] => Some None
           | next :: r =>
               let? found := recur_find_cycle fuel g next (current :: path) in
               match found with
               | Some c => Some (Some c)
               | None => loop r
               end
           end) (n_out n)
    end.

(** sort.rs:77-106 [derive_cycle] with return_cycles = true: starts at the smallest label
    having both incoming and outgoing edges (line 101 unwraps). *)
Definition min_label (l : list N) : option N :=
  fold_right (fun x m => match m with None => Some x | Some y => Some (N.min x y) end) None l.
(** sort.rs:108-121 [find_cycle]: the debug_assert of line 118 panics when the search
    found nothing. *)
Definition derive_cycle g : option (list N) :=
  let? start := min_label (map n_label (filter (fun n => has_incoming n && has_outgoing n) g)) in
  let? found := recur_find_cycle (S (length g)) g start [] in
  found.

(** cycle.rs:6-16 [GraphCycles] in the error, the sorted labels otherwise. *)
Inductive sort_result : Type := Sorted (l : list N) | HasCycles (cycle : list N).

(** sort.rs:29-66 [try_topological_sort] *)
Definition try_topological_sort g (return_cycles : bool) : option sort_result :=
  let queued := rev (source_nodes g) in
  let? (g, sorted) := sweep (fun _ _ g => Some g) (sweep_fuel g queued) g queued [] in
  if has_edges g then
    if return_cycles then let? c := derive_cycle g in Some (HasCycles c)
    else Some (HasCycles [])
  else Some (Sorted sorted).

(** sort.rs:20-27 [topological_sort]: unwraps. *)
Definition topological_sort g : option (list N) :=
  let? r := try_topological_sort g false in
  match r with Sorted l => Some l | HasCycles _ => None end.

End Graphs.

(* ------------------------------------------------------------------------- *)
(** * Call graphs *)

(** call_graph/builder.rs:19-46 [add_target], [add_call]. *)
Definition add_target (l : N) (g : graph unit) : graph unit := get_or_create tt l g.
Definition add_call (origin target : N) (g : graph unit) : option (graph unit) :=
  add_edge tt origin target g.

(** call_graph/mod.rs:30-38 [find_cycles]: [Some None] is NoCycles. *)
Definition find_cycles (g : graph unit) (return_cycles : bool) : option (option (list N)) :=
  let? r := try_topological_sort g return_cycles in
  match r with Sorted _ => Some None | HasCycles c => Some (Some c) end.

(* ------------------------------------------------------------------------- *)
(** * Weighted graphs *)

(** weight.rs:168-179 [NodeWeight]; the [label] field only serves messages. *)
Record node_weight := mkWeight {
  w_weight : option N; w_dep_label : option N; w_dep_weight : option N }.
(** weight.rs:181-194 *)
Definition default_weight : node_weight := mkWeight None None None.

Definition wgraph := graph node_weight.

(** weight.rs:240-242, 247-249 *)
Definition set_weight (w : N) (d : node_weight) := mkWeight (Some w) (w_dep_label d) (w_dep_weight d).
Definition mark_start (d : node_weight) := mkWeight (w_weight d) (w_dep_label d) (Some 0).

(** weight.rs:256-270 [NodeWeight::relax] *)
Definition weight_relax (dep_label dep_weight : N) (d : node_weight) : node_weight :=
  match w_dep_weight d with
  | Some cur =>
      if cur <? dep_weight then mkWeight (w_weight d) (Some dep_label) (Some dep_weight) else d
  | None => mkWeight (w_weight d) (Some dep_label) (Some dep_weight)
  end.

(** usize addition of a debug build. *)
Definition add_usize (a b : N) : option N := if a + b <=? u64_max then Some (a + b) else None.

(** weight.rs:276-280 [total_weight], 289-294 [weight] *)
Definition total_weight (d : node_weight) : option N :=
  let? dep := w_dep_weight d in
  let? w := w_weight d in
  add_usize dep w.

Definition update_data (l : N) (f : node_weight -> node_weight) (g : wgraph) : wgraph :=
  g_update l (fun n => set_data (f (n_data n)) n) g.

(** weight.rs:92-101 [init_start] *)
Definition init_start (start : N) (g : wgraph) : option wgraph :=
  let? _ := g_get start g in Some (update_data start mark_start g).

(** weight.rs:103-116 [relax] *)
Definition relax (dest dep : N) (g : wgraph) : option wgraph :=
  let? dn := g_get dep g in
  let? w := total_weight (n_data dn) in
  Some (update_data dest (weight_relax dep w) g).

(** weight.rs:53-64 [prune_unreachable_nodes]: the source nodes are listed first. *)
Fixpoint remove_nodes (l : list N) (g : wgraph) : option wgraph :=
  match l with
  | [] => Some g
  | x :: r => let? g := remove_node x g in remove_nodes r g
  end.
Definition prune_unreachable_nodes (start : N) (g : wgraph) : option wgraph :=
  remove_nodes (filter (fun l => negb (l =? start)) (source_nodes g)) g.

(** weight.rs:118-166 *)
Definition node_weight_by_label (g : wgraph) (l : N) : option N :=
  let? n := g_get l g in w_weight (n_data n).
Definition node_total_by_label (g : wgraph) (l : N) : option N :=
  let? n := g_get l g in total_weight (n_data n).
Definition node_dep_by_label (g : wgraph) (l : N) : option N :=
  let? n := g_get l g in w_dep_label (n_data n).

(** weight.rs:66-90 [construct_path]: walks the dependencies back from [end]; [acc] is the
    reversed Vec.  Fuel: one unit per step. *)
Fixpoint walk_back (fuel : nat) (g : wgraph) (start label : N) (acc : list (N * N)) : option (list (N * N)) :=
  if label =? start then
    let? w := node_weight_by_label g start in Some ((start, w) :: acc)
  else
    match fuel with
    | O => None
    | S fuel =>
        let? w := node_weight_by_label g label in
        let? d := node_dep_by_label g label in
        walk_back fuel g start d ((label, w) :: acc)
    end.

(** weight.rs:327-334 [WeightedPath] *)
Record weighted_path := mkPath { wp_path : list (N * N); wp_total : N }.

Definition construct_path (g : wgraph) (start end_ : N) : option weighted_path :=
  let? path := walk_back (length g) g start end_ [] in
  let? total := node_total_by_label g end_ in
  Some (mkPath path total).

(** weight.rs:16-51 [compute_max_weight_path]; [touched_end] (lines 28, 33-35, 49) says that
    the end node has been popped. *)
Definition compute_max_weight_path (g : wgraph) (start end_ : N) : option weighted_path :=
  let? g := init_start start g in
  let? g := prune_unreachable_nodes start g in
  let? _ := g_get start g in
  let? (g, popped) := sweep relax (sweep_fuel g [start]) g [start] [] in
  if existsb (N.eqb end_) popped then construct_path g start end_ else None.
