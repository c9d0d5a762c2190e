(** Model of the pricing of programs: crates/host/gas/src/cfg/ (control-flow graphs),
    crates/host/gas/src/pricing/ and crates/host/gas/src/gas.rs.  Paths below are relative
    to crates/host/gas/src.  [None] = panic (debug build).  The depth (u32) and the block
    numbers (usize) count instructions of the function and are not bounded here. *)
From Coq Require Import String List NArith Bool.
From Verif Require Import Base Text ReceiptModel GraphModel GraphSpec ProgramModel.
Import ListNotations.
Open Scope string_scope.
Open Scope list_scope.
Open Scope N_scope.

(* ------------------------------------------------------------------------- *)
(** * Control-flow graphs *)

(** cfg/block/mod.rs [Block], cfg/block/builder.rs [BlockBuilder].  Simplified: a block is
    its operations and the targets of its outgoing edges.  The kinds of edges are only
    printed, the incoming edges are the outgoing ones seen from the other side, and the
    repetitions that [build] removes have no effect on the graph built from the blocks. *)
Record cblock := mkBlock { bl_ops : list instr; bl_out : list N }.

(** cfg/cont.rs [DepthUnresolvedCont] *)
Record conts := mkConts { on_if_false : option N; after_if : option N; after_then : option N }.
(** cfg/cont.rs is_empty *)
Definition conts_empty (c : conts) : bool :=
  match on_if_false c, after_if c, after_then c with None, None, None => true | _, _, _ => false end.

(** cfg/builder.rs:18-28 [CFGBuilder].  [block_num] is the number of the last block.  The
    two HashMaps are association lists, only accessed by key. *)
Record builder := mkBuilder {
  cb_depth : N;
  cb_blocks : list cblock;
  cb_jumps : list (N * list N);
  cb_conts : list (N * conts)
}.

(** HashMap::remove and HashMap::insert *)
Definition map_del {A} (k : N) (l : list (N * A)) : list (N * A) := filter (fun e => negb (fst e =? k)) l.
Definition map_put {A} (k : N) (a : A) (l : list (N * A)) : list (N * A) := (k, a) :: map_del k l.

(** cfg/builder.rs:53-55 current_block *)
Definition current (b : builder) : N := nlen (cb_blocks b) - 1.

(** Mutation of the block with number [n] (cfg/builder.rs:258-261 block_mut). *)
Fixpoint at_block (n : nat) (f : cblock -> cblock) (l : list cblock) : list cblock :=
  match l, n with
  | [], _ => []
  | x :: r, O => f x :: r
  | x :: r, S n => x :: at_block n f r
  end.
Definition with_blocks (l : list cblock) (b : builder) : builder :=
  mkBuilder (cb_depth b) l (cb_jumps b) (cb_conts b).
Definition with_depth (d : N) (b : builder) : builder :=
  mkBuilder d (cb_blocks b) (cb_jumps b) (cb_conts b).
Definition with_jumps (l : list (N * list N)) (b : builder) : builder :=
  mkBuilder (cb_depth b) (cb_blocks b) l (cb_conts b).
Definition with_conts (l : list (N * conts)) (b : builder) : builder :=
  mkBuilder (cb_depth b) (cb_blocks b) (cb_jumps b) l.

(** cfg/builder.rs:75-81 append *)
Definition append (i : instr) (b : builder) : builder :=
  with_blocks (at_block (N.to_nat (current b)) (fun x => mkBlock (bl_ops x ++ [i]) (bl_out x)) (cb_blocks b)) b.
(** cfg/builder.rs:170-183 create_block *)
Definition create_block (b : builder) : builder := with_blocks (cb_blocks b ++ [mkBlock [] []]) b.
(** cfg/builder.rs:202-218 add_cont, 316-322 add_edge *)
Definition cfg_edge (origin target : N) (b : builder) : builder :=
  with_blocks (at_block (N.to_nat origin) (fun x => mkBlock (bl_ops x) (bl_out x ++ [target])) (cb_blocks b)) b.
(** cfg/builder.rs:186-199 add_jump *)
Definition add_jump (origin depth : N) (b : builder) : builder :=
  let old := match assoc depth (cb_jumps b) with Some l => l | None => [] end in
  with_jumps (map_put depth (old ++ [origin]) (cb_jumps b)) b.

(** cfg/builder.rs:84-99 enter_scope *)
Definition enter_scope (b : builder) : builder := with_depth (cb_depth b + 1) b.

(** cfg/builder.rs:32-50 new *)
Definition cfg_new : builder :=
  cfg_edge 0 1 (create_block (enter_scope (mkBuilder 0 [mkBlock [] []] [] []))).

(** cfg/builder.rs:102-124 enter_if *)
Definition enter_if (b : builder) : builder :=
  let block := current b in
  let depth := cb_depth b in
  let b := match assoc depth (cb_conts b) with
           | Some _ => b
           | None => with_conts (map_put depth (mkConts (Some block) (Some block) None) (cb_conts b)) b
           end in
  let b := create_block b in
  enter_scope (cfg_edge block (current b) b).

(** cfg/builder.rs:127-150 enter_else *)
Definition enter_else (b : builder) : option builder :=
  let block := current b in
  if cb_depth b <=? 1 then None
  else
    let? c := assoc (cb_depth b - 1) (cb_conts b) in
    let? on_false := on_if_false c in
    let left_ := mkConts None None (after_then c) in
    if conts_empty left_ then
      let b := with_conts (map_put (cb_depth b - 1) (mkConts None None (Some block)) (cb_conts b)) b in
      let b := create_block b in
      Some (cfg_edge on_false (current b) b)
    else None.

(** cfg/builder.rs:220-256 resolve_jumps *)
Definition resolve_jumps (depth : N) (create_new_block : bool) (b : builder) : builder :=
  match assoc depth (cb_jumps b) with
  | None => b
  | Some jumps =>
      let b := with_jumps (map_del depth (cb_jumps b)) b in
      match jumps with
      | [] => b
      | _ =>
          let b := if create_new_block
                   then let old := current b in let b := create_block b in cfg_edge old (current b) b
                   else b in
          fold_left (fun b origin => cfg_edge origin (current b) b) jumps b
      end
  end.
(** cfg/builder.rs:389-397 do_exit_scope *)
Definition do_exit_scope (create_new_block : bool) (b : builder) : builder :=
  let b := with_depth (cb_depth b - 1) b in
  resolve_jumps (cb_depth b) create_new_block b.

(** cfg/builder.rs:345-365 exit_else; [None] = the debug assertion on what is left *)
Definition exit_else (c : conts) (then_ : N) (b : builder) : option builder :=
  let depth := cb_depth b - 1 in
  let old := current b in
  let b := create_block b in
  if conts_empty (mkConts (on_if_false c) (after_if c) None) then
    let b := with_conts (map_del depth (cb_conts b)) b in
    let b := cfg_edge old (current b) b in
    let b := cfg_edge then_ (current b) b in
    Some (do_exit_scope false b)
  else None.
(** cfg/builder.rs:367-387 exit_then *)
Definition exit_then (c : conts) (if_ : N) (b : builder) : option builder :=
  let depth := cb_depth b - 1 in
  let old := current b in
  let b := create_block b in
  if conts_empty (mkConts None None (after_then c)) then
    let b := with_conts (map_del depth (cb_conts b)) b in
    let b := cfg_edge old (current b) b in
    let b := cfg_edge if_ (current b) b in
    Some (do_exit_scope false b)
  else None.
(** cfg/builder.rs:153-167 exit_scope, 325-343 is_within_else, is_within_then *)
Definition exit_scope (b : builder) : option builder :=
  if cb_depth b =? 0 then None
  else
    match assoc (cb_depth b - 1) (cb_conts b) with
    | None => Some (do_exit_scope true b)
    | Some c =>
        match after_then c with
        | Some then_ => exit_else c then_ b
        | None =>
            match after_if c with
            | Some if_ => exit_then c if_ b
            | None => Some (do_exit_scope true b)
            end
        end
    end.

(** cfg/mod.rs:377-381 target_depth: debug assertion *)
Definition target_depth (b : builder) (label : N) : option N :=
  if label <? cb_depth b then Some (cb_depth b - label - 1) else None.
Fixpoint add_jumps (origin : N) (labels : list N) (b : builder) : option builder :=
  match labels with
  | [] => Some b
  | l :: r => let? d := target_depth b l in add_jumps origin r (add_jump origin d b)
  end.

(** cfg/mod.rs:323-332 the loop of build_func_cfg, 376-418 on_jump, 454-524 op_kind *)
Definition cfg_op (i : instr) (b : builder) : option builder :=
  let origin := current b in
  match i with
  | Return | Unreachable => Some (add_jump origin 0 (create_block b))
  | Br l => add_jumps origin [l] (create_block b)
  | BrIf l =>
      let? b := add_jumps origin [l] (create_block b) in
      Some (cfg_edge origin (current b) b)
  | BrTable ls d => add_jumps origin (d :: ls) (create_block b)
  | If => Some (enter_if b)
  | Else => enter_else b
  | Block => Some (append Block (enter_scope b))
  | End => exit_scope b
  | _ => Some (append i b)
  end.
Fixpoint cfg_ops (ops : list instr) (b : builder) : option builder :=
  match ops with
  | [] => Some b
  | i :: r => let? b := cfg_op i b in cfg_ops r b
  end.

(** cfg/mod.rs:315-347 build_func_cfg, cfg/builder.rs:271-293 build: the blocks. *)
Definition build_func_cfg (body : list instr) : option (list cblock) :=
  let? b := cfg_ops body cfg_new in
  match cb_jumps b with
  | [] => if cb_depth b =? 0 then Some (cb_blocks b) else None
  | _ => None
  end.

(* ------------------------------------------------------------------------- *)
(** * Prices *)

(** pricing/resolver.rs [PriceResolver] *)
Record resolver := mkResolver { op_price : instr -> N; import_price : bytes * bytes -> N }.

(** pricing/resolvers/v0.rs [V0PriceResolver] *)
Definition v0_imports : list (bytes * N) :=
  [(txt "svm_static_alloc", 100); (txt "svm_calldata_offset", 10); (txt "svm_calldata_len", 10);
   (txt "svm_set_returndata", 20); (txt "svm_get32", 100); (txt "svm_set32", 1000000);
   (txt "svm_get64", 200); (txt "svm_set64", 2000000); (txt "svm_load160", 500);
   (txt "svm_store160", 5000000); (txt "svm_log", 3000)].
Fixpoint v0_import (name : bytes) (l : list (bytes * N)) : N :=
  match l with
  | [] => 1000
  | (n, p) :: r => if bytes_eqb n name then p else v0_import name r
  end.
Definition v0_resolver : resolver :=
  mkResolver (fun _ => 1)
    (fun im => if bytes_eqb (fst im) (txt "svm") then v0_import (snd im) v0_imports else 1000).

(** pricing/func_price.rs [FuncPrice] *)
Definition func_price := list (N * N).

(** pricing/cfg.rs:71-107 resolve_op, resolve_call_price; program/src/import.rs try_resolve.
    [None]: the unwrap of func_price.rs:32-34. *)
Definition resolve_op (p : program) (r : resolver) (fp : func_price) (i : instr) : option N :=
  match i with
  | Call target =>
      match nth_error (p_imports p) (N.to_nat target) with
      | Some im => Some (import_price r im)
      | None => assoc target fp
      end
  | _ => Some (op_price r i)
  end.

(** pricing/cfg.rs:60-69 compute_block_price: usize sum *)
Fixpoint sum_prices (p : program) (r : resolver) (fp : func_price) (acc : N) (ops : list instr) : option N :=
  match ops with
  | [] => Some acc
  | i :: ops =>
      let? x := resolve_op p r fp i in
      let? acc := add_usize acc x in
      sum_prices p r fp acc ops
  end.

(** pricing/cfg.rs:36-47: the first loop of build_weighted_graph. *)
Fixpoint weigh_blocks (p : program) (r : resolver) (fp : func_price) (n : N) (l : list cblock) (g : wgraph)
  : option wgraph :=
  match l with
  | [] => Some g
  | x :: l =>
      let g := get_or_create default_weight n g in
      let? price := sum_prices p r fp 0 (bl_ops x) in
      weigh_blocks p r fp (n + 1) l (update_data n (set_weight price) g)
  end.
(** pricing/cfg.rs:49-56: the second loop. *)
Fixpoint link_block (n : N) (outs : list N) (g : wgraph) : option wgraph :=
  match outs with
  | [] => Some g
  | t :: outs => let? g := add_edge default_weight n t g in link_block n outs g
  end.
Fixpoint link_blocks (n : N) (l : list cblock) (g : wgraph) : option wgraph :=
  match l with
  | [] => Some g
  | x :: l => let? g := link_block n (bl_out x) g in link_blocks (n + 1) l g
  end.
(** pricing/cfg.rs:28-58 build_weighted_graph *)
Definition build_weighted_graph (p : program) (r : resolver) (fp : func_price) (l : list cblock) : option wgraph :=
  let? g := weigh_blocks p r fp 0 l [] in link_blocks 0 l g.

(** pricing/mod.rs:148-168 compute_func_price *)
Definition compute_func_price (p : program) (r : resolver) (fp : func_price) (f : N) : option N :=
  let? body := get_func p f in
  let? blocks := build_func_cfg body in
  let? g := build_weighted_graph p r fp blocks in
  let? path := compute_max_weight_path g 0 (nlen blocks - 1) in
  Some (wp_total path).

(** pricing/mod.rs:99-113 the loop of on_end; [sorted] in the order of popping. *)
Fixpoint price_functions (p : program) (r : resolver) (sorted : list N) (fp : func_price) : option func_price :=
  match sorted with
  | [] => Some fp
  | f :: rest =>
      let? price := compute_func_price p r fp f in
      price_functions p r rest (map_put f price fp)
  end.

(** pricing/mod.rs:115-146 on_func_start, on_op *)
Fixpoint calls_body (p : program) (f : N) (body : list instr) (g : graph unit) : option (graph unit) :=
  match body with
  | [] => Some g
  | Call target :: body =>
      if is_imported p target then calls_body p f body g
      else let? g := add_call f target g in calls_body p f body g
  | _ :: body => calls_body p f body g
  end.
Fixpoint calls_functions (p : program) (fs : list (N * list instr)) (g : graph unit) : option (graph unit) :=
  match fs with
  | [] => Some g
  | (f, body) :: fs =>
      let? g := calls_body p f body (add_target f g) in calls_functions p fs g
  end.

(** pricing/mod.rs:69-75 run, 99-113 on_end *)
Definition price_program (p : program) (r : resolver) : option func_price :=
  let? g := calls_functions p (p_functions p) [] in
  let? sorted := topological_sort g in
  price_functions p r (rev sorted) [].

(* ------------------------------------------------------------------------- *)
(** * Gas intervals *)

(** gas.rs:7-20 [Gas] *)
Inductive gas_units : Type := GFixed (n : N) | GRange (min max : N).

(** gas.rs:33-61 [Add]: one of the two *)
Definition gas_or (a b : gas_units) : gas_units :=
  match a, b with
  | GFixed x, GFixed y => if x =? y then GFixed x else GRange (N.min x y) (N.max x y)
  | GFixed x, GRange a b => GRange (N.min a x) (N.max b x)
  | GRange a b, GFixed x => GRange (N.min a x) (N.max b x)
  | GRange a b, GRange c d => GRange (N.min a c) (N.max b d)
  end.

(** gas.rs:63-86 [Mul]: one after the other; u64 additions *)
Definition gas_then (a b : gas_units) : option gas_units :=
  match a, b with
  | GFixed x, GFixed y => let? s := add_usize x y in Some (GFixed s)
  | GFixed x, GRange a b => let? lo := add_usize a x in let? hi := add_usize b x in Some (GRange lo hi)
  | GRange a b, GFixed x => let? lo := add_usize a x in let? hi := add_usize b x in Some (GRange lo hi)
  | GRange a b, GRange c d => let? lo := add_usize a c in let? hi := add_usize b d in Some (GRange lo hi)
  end.
