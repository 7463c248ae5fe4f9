(** Building the graph of an architecture from its terminals:
    neps/search_spaces/architecture/core_graph_grammar.py:280-290, 308-318, 351-358, 370-392, 415, 440-455
    (from_stringTree_to_graph_repr, edge-attributed).

    Simplification: the string is given by its terminals in order, without nonterminals and brackets
    (320-349; Cfg_model is about these).  Not modelled: node attributes, subtree maps, subgraphs and what is
    pruned after the loop. *)
From Coq Require Import List Bool Arith String.
From Verif Require Export Base Enc_model.
Import ListNotations.
Local Open Scope nat_scope.
Local Open Scope list_scope.
Local Notation length := List.length.

(** an edge between two nodes *)
Definition edge : Type := (nat * nat)%type.
(** e == e' for tuples *)
Definition edge_eqb (e e' : edge) : bool := Nat.eqb (fst e) (fst e') && Nat.eqb (snd e) (snd e').
(** nx.DiGraph with op_name of its edges (core_graph_grammar.py:280) *)
Definition graph : Type := list (edge * option string).
(** (u, v) in G.edges *)
Definition has_edge (G : graph) (e : edge) : bool := existsb (fun x => edge_eqb (fst x) e) G.
(** G.add_edges_from (core_graph_grammar.py:415): an edge that is there stays as it is *)
Definition add_edge (G : graph) (e : edge) : graph := if has_edge G e then G else G ++ [(e, None)].
(** G.remove_edge (core_graph_grammar.py:381, 450); RuntimeError: NetworkXError *)
Definition remove_edge (G : graph) (e : edge) : res graph :=
  if has_edge G e then Ok (filter (fun x => negb (edge_eqb (fst x) e)) G) else Err RuntimeError.
(** G[u][v][sym_name] = sym (core_graph_grammar.py:455) *)
Definition set_op (G : graph) (e : edge) (s : string) : res graph :=
  if has_edge G e then Ok (map (fun x => if edge_eqb (fst x) e then (fst x, Some s) else x) G) else Err KeyError.

(** core_graph_grammar.py:312-316, 370-373: the one node without an edge to it, and the one without an edge from
    it; ValueError if there is none or more than one *)
Definition begin_end (el : list edge) : res edge :=
  let firsts := nodup Nat.eq_dec (map fst el) in
  let seconds := nodup Nat.eq_dec (map snd el) in
  match filter (fun n => negb (existsb (Nat.eqb n) seconds)) firsts, filter (fun n => negb (existsb (Nat.eqb n) firsts)) seconds with
  | [b], [e] => Ok (b, e)
  | _, _ => Err ValueError
  end.
(** max of two tuples *)
Definition lex_max (e e' : edge) : edge :=
  if Nat.ltb (fst e) (fst e') || (Nat.eqb (fst e) (fst e') && Nat.ltb (snd e) (snd e')) then e' else e.
(** max(max(edges)) (core_graph_grammar.py:442): the greater node of the edge that is last in order *)
Definition max_max (el : list edge) : nat := let e := fold_right lex_max (0, 0) el in Nat.max (fst e) (snd e).
(** core_graph_grammar.py:383-390 *)
Definition renamed (b z u v offset n : nat) : nat := if Nat.eqb n b then u else if Nat.eqb n z then v else n + offset.
(** core_graph_grammar.py:382-392 *)
Definition renamed_edges (b z u v offset : nat) (el : list edge) : list edge :=
  map (fun e => (renamed b z u v offset (fst e), renamed b z u v offset (snd e))) el.

Section Run.
  (** self.terminal_to_graph_edges: the edges of topologies, none for primitive operations *)
  Variable edges_of : string -> option (list edge).
  (** prune and sym in self.zero_op (core_graph_grammar.py:449) *)
  Variable zero : string -> bool.
  (** the graph, q_el (what is popped next first) and node_offset *)
  Definition state : Type := (graph * list edge * nat)%type.
  (** core_graph_grammar.py:351-358, 370-392, 415, 440-455: one terminal *)
  Definition step (s : state) (sym : string) : res state :=
    let '(G, q, offset) := s in
    match edges_of sym with
    | Some el =>
        bind (begin_end el) (fun '(b, z) =>
        match q with
        | [] =>
            let new := map (fun e => (fst e + offset, snd e + offset)) el in
            Ok (fold_left add_edge new G, new, offset + max_max el)
        | (u, v) :: q =>
            bind (remove_edge G (u, v)) (fun G =>
            let new := renamed_edges b z u v offset el in
            Ok (fold_left add_edge new G, new ++ q, offset + max_max el))
        end)
    | None =>
        match q with
        | [] => Err IndexError
        | e :: q => bind (if zero sym then remove_edge G e else set_op G e sym) (fun G => Ok (G, q, offset))
        end
    end.
  (** core_graph_grammar.py:320, the loop *)
  Fixpoint run (syms : list string) (s : state) : res state :=
    match syms with [] => Ok s | sym :: syms => bind (step s sym) (run syms) end.
  (** core_graph_grammar.py:280, 288-289 *)
  Definition built (syms : list string) : res state := run syms ([], [], 0).
End Run.
