(** Topologies with the operations on nodes instead of edges:
    neps/search_spaces/architecture/core_graph_grammar.py:245-266 (to_node_attributed_edge_list).

    Edges and the first and last node are those of Sub_model. *)
From Coq Require Import List Bool Arith.
From Verif Require Export Sub_model.
Import ListNotations.
Local Open Scope nat_scope.
Local Open Scope list_scope.

(** core_graph_grammar.py:249: edge_to_node_map; if an edge is there more than once the last one counts *)
Fixpoint node_of (i : nat) (el : list edge) (e : edge) : option nat :=
  match el with
  | [] => None
  | x :: r => match node_of (S i) r e with Some k => Some k | None => if edge_eqb x e then Some i else None end
  end.
(** edge_to_node_map[e] (core_graph_grammar.py:256, 264) *)
Definition lookup (el : list edge) (e : edge) : res nat := match node_of 2 el e with Some k => Ok k | None => Err KeyError end.
(** core_graph_grammar.py:255-264: what is appended for the edge e *)
Definition appended (el : list edge) (b z : nat) (e : edge) : res (list edge) :=
  bind (lookup el e) (fun ni =>
  bind (mapM (lookup el) (filter (fun e' => Nat.eqb (snd e') (fst e)) el)) (fun before =>
  Ok ((if Nat.eqb (fst e) b then [(0, ni)] else []) ++ (if Nat.eqb (snd e) z then [(ni, 1)] else []) ++ map (fun k => (k, ni)) before))).
(** core_graph_grammar.py:245-266: node_list *)
Definition node_list (el : list edge) : res (list edge) :=
  bind (begin_end el) (fun '(b, z) => bind (mapM (appended el b z) el) (fun ls => Ok (List.concat ls))).
