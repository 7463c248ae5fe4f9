(** Flattening graphs: neps/search_spaces/architecture/core_graph_grammar.py:828-876.

    A graph with operations at its edges is the list of them, in the order in which networkx gives
    them; the attributes of nodes are not modelled.  [A]: operations that are no graphs. *)
From Verif Require Import Py.
Local Open Scope Z_scope.
Local Open Scope list_scope.

Section Flatten.
  Context {A : Type}.
  (** data["op"] (core_graph_grammar.py:868): an operation, or a graph with edges *)
  Inductive hop : Type := Plain (a : A) | Sub (es : list (Z * Z * hop)).
  (** flattened_graph (core_graph_grammar.py:834-835) *)
  Record flat_graph : Type := mkFlat { f_nodes : list Z; f_edges : list (Z * Z * A) }.
  (** [max(flattened_graph.nodes.keys()) + 1], or 1 (core_graph_grammar.py:841-845, 859) *)
  Definition fresh (F : flat_graph) : Z := match f_nodes F with [] => 1 | n :: l => fold_right Z.max n l + 1 end.
  (** [add_node], if it is not there (core_graph_grammar.py:852-853, 862-863) *)
  Definition ensure (n : Z) (F : flat_graph) : flat_graph :=
    if existsb (Z.eqb n) (f_nodes F) then F else mkFlat (f_nodes F ++ [n]) (f_edges F).
  (** [add_edge] and the update of its data (core_graph_grammar.py:873-874) *)
  Fixpoint set_op (u v : Z) (a : A) (l : list (Z * Z * A)) : list (Z * Z * A) :=
    match l with
    | [] => [(u, v, a)]
    | (u', v', a') :: l' => if Z.eqb u u' && Z.eqb v v' then (u, v, a) :: l' else (u', v', a') :: set_op u v a l'
    end.
  (** the dict [nodes] (core_graph_grammar.py:836) *)
  Fixpoint named (w : Z) (names : list (Z * Z)) : option Z :=
    match names with [] => None | (w', n) :: l => if Z.eqb w w' then Some n else named w l end.
  (** core_graph_grammar.py:838-866: the name of one end; [at_end]: whether the node has no edges to it
      (or from it), [given]: start_node (or end_node) *)
  Definition name (w : Z) (at_end : bool) (given : option Z) (names : list (Z * Z)) (F : flat_graph) : Z * list (Z * Z) * flat_graph :=
    match named w names with
    | Some n => (n, names, F)
    | None =>
        let n := match given with Some s => if at_end then s else fresh F | None => fresh F end in
        (n, (w, n) :: names, ensure n F)
    end.
  Section Edges.
    Variable rec : hop -> Z -> Z -> flat_graph -> flat_graph.
    (** core_graph_grammar.py:837-876: the edges [l] that are left of [es] *)
    Fixpoint each_edge (es : list (Z * Z * hop)) (start stop : option Z) (l : list (Z * Z * hop)) (names : list (Z * Z)) (F : flat_graph) : flat_graph :=
      match l with
      | [] => F
      | (u, v, o) :: l' =>
          let '(nu, names1, F1) := name u (negb (existsb (fun e => Z.eqb (snd (fst e)) u) es)) start names F in
          let '(nv, names2, F2) := name v (negb (existsb (fun e => Z.eqb (fst (fst e)) v) es)) stop names1 F1 in
          each_edge es start stop l' names2 (rec o nu nv F2)
      end.
  End Edges.
  (** core_graph_grammar.py:868-874: the operation of one edge, between nodes that have names *)
  Fixpoint place (o : hop) (u v : Z) (F : flat_graph) : flat_graph :=
    match o with
    | Plain a => mkFlat (f_nodes F) (set_op u v a (f_edges F))
    | Sub es => each_edge place es (Some u) (Some v) es [] F
    end.
  (** core_graph_grammar.py:828-876 flatten_graph(graph) *)
  Definition flatten_graph (es : list (Z * Z * hop)) : flat_graph := each_edge place es None None es [] (mkFlat [] []).
End Flatten.
Arguments hop : clear implicits.
Arguments flat_graph : clear implicits.
