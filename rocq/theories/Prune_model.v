(** Pruning graphs of architectures:
    neps/search_spaces/architecture/core_graph_grammar.py:110-113, 725-826.

    A graph (networkx.DiGraph) is its nodes and edges, in the order in which they were added, without
    their attributes.  The order in which [nx.topological_sort] gives the nodes is an argument.
    Python's limit of recursion is not modelled. *)
From Verif Require Import Py.
From Coq Require Import String.
Local Open Scope nat_scope.
Local Open Scope list_scope.
Local Notation length := List.length.

(** networkx.DiGraph (core_graph_grammar.py:799) *)
Record graph : Type := mkGraph { nodes : list Z; edges : list (Z * Z) }.
(** [n in graph.nodes()] (core_graph_grammar.py:805, 818) *)
Definition has_node (g : graph) (n : Z) : bool := existsb (Z.eqb n) (nodes g).
(** [graph.predecessors(n)], [graph.successors(n)] (core_graph_grammar.py:819-820) *)
Definition preds (g : graph) (n : Z) : list Z := map fst (filter (fun e => Z.eqb (snd e) n) (edges g)).
Definition succs (g : graph) (n : Z) : list Z := map snd (filter (fun e => Z.eqb (fst e) n) (edges g)).
(** [graph.remove_node(n)] (core_graph_grammar.py:802) *)
Definition remove_node (g : graph) (n : Z) : graph :=
  mkGraph (filter (fun m => negb (Z.eqb m n)) (nodes g))
          (filter (fun e => negb (Z.eqb (fst e) n) && negb (Z.eqb (snd e) n)) (edges g)).
Definition is_nil {A} (l : list A) : bool := match l with [] => true | _ => false end.

(** core_graph_grammar.py:800-812 _backtrack_remove; [fuel]: how deep it may get *)
Fixpoint backtrack_remove (fuel : nat) (g : graph) (node : Z) : res graph :=
  match fuel with
  | O => Err OutOfFuel
  | S k =>
      fold_left (fun rg u => bind rg (fun g =>
                   if negb (has_node g u) then Ok g
                   else if negb (is_nil (succs g u)) then Ok g
                   else backtrack_remove k g u))
        (rev (preds g node)) (Ok (remove_node g node))
  end.

(** core_graph_grammar.py:817-824: one node *)
Definition visit (fuel : nat) (src tgt : Z) (g : graph) (n : Z) : res graph :=
  if has_node g n then
    if negb (Z.eqb n src) && is_nil (preds g n) then Ok (remove_node g n)
    else if negb (Z.eqb n tgt) && is_nil (succs g n) then backtrack_remove fuel g n
    else Ok g
  else Ok g.
(** core_graph_grammar.py:799-825 prune_unconnected_parts; [order]: the nodes sorted *)
Definition prune_unconnected_parts (g : graph) (order : list Z) (src tgt : Z) : res graph :=
  fold_left (fun rg n => bind rg (fun g' => visit (length (nodes g)) src tgt g' n)) order (Ok g).

(** core_graph_grammar.py:110-113 _check_graph *)
Definition check_graph (g : graph) : res graph := if is_nil (nodes g) || is_nil (edges g) then Err ValueError else Ok g.

(** ** prune_graph of a graph with operations at its nodes *)

(** [graph.add_edges_from]: an edge that is there stays as it is; its ends are nodes
    (core_graph_grammar.py:782-788) *)
Definition has_edge (g : graph) (e : Z * Z) : bool := existsb (fun d => Z.eqb (fst d) (fst e) && Z.eqb (snd d) (snd e)) (edges g).
Definition add_edge (g : graph) (e : Z * Z) : graph := if has_edge g e then g else mkGraph (nodes g) (edges g ++ [e]).
(** core_graph_grammar.py:774-790: one node; [zero], [identity]: whether the operation of a node is
    among [zero_op], [identity_op] *)
Definition drop (zero identity : Z -> bool) (g : graph) (n : Z) : graph :=
  if has_node g n && (zero n || identity n) then
    remove_node (if identity n then fold_left add_edge (list_prod (preds g n) (succs g n)) g else g) n
  else g.
(** core_graph_grammar.py:730-740: the only node without edges to it, or from it *)
Definition the_only (l : list Z) : res Z := match l with [n] => Ok n | _ => Err RuntimeError end.
(** core_graph_grammar.py:725-796, with [edge_attr=False]; [sorted]: nx.topological_sort *)
Definition prune_graph_nodes (sorted : graph -> list Z) (zero identity : Z -> bool) (g : graph) : res graph :=
  bind (the_only (filter (fun n => is_nil (preds g n)) (nodes g))) (fun src =>
  bind (the_only (filter (fun n => is_nil (succs g n)) (nodes g))) (fun tgt =>
  let g1 := fold_left (drop zero identity) (sorted g) g in
  prune_unconnected_parts g1 (sorted g1) src tgt)).

(** ** prune_graph of a graph with primitives at its edges *)

(** Python's [a in b] for texts (core_graph_grammar.py:755) *)
Fixpoint within (a b : string) : bool :=
  prefix a b || match b with EmptyString => false | String _ b' => within a b' end.
(** core_graph_grammar.py:725-796, with [edge_attr=True], if every edge has a primitive, named by
    [name] *)
Definition prune_graph_edges (sorted : graph -> list Z) (name : Z * Z -> string) (zero_op : list string) (g : graph) : res graph :=
  bind (the_only (filter (fun n => is_nil (preds g n)) (nodes g))) (fun src =>
  bind (the_only (filter (fun n => is_nil (succs g n)) (nodes g))) (fun tgt =>
  let g1 := mkGraph (nodes g) (filter (fun e => negb (existsb (fun z => within z (name e)) zero_op)) (edges g)) in
  prune_unconnected_parts g1 (sorted g1) src tgt)).
