(** The module made of a graph, and topologies that are called themselves:
    neps/search_spaces/architecture/graph.py:221-345, topologies.py:26-187.

    A graph (nodes, edges) is as in Prune_model, what is at its edges and nodes is given by functions.
    The generated source is a list of statements here instead of a text; [X] are the values (tensors).
    Not modelled: graphs at nodes (graph.py:239-248), [parse], writing the source to a file
    (graph.py:331-334), the names of operations (topologies.py:27-60). *)
From Verif Require Import Py Prune_model.
Local Open Scope nat_scope.
Local Open Scope list_scope.
Local Notation length := List.length.

Section Net.
  Context {X : Type}.

  (** ** The module made of a graph *)

  (** what is at an edge (graph.py:287-306): a primitive, or a graph of which a module is made, or
      something else *)
  Inductive edge_op : Type := Op (f : X -> X) | UnknownOp.
  (** what is at a node (graph.py:254-263): sum, a module, or something else *)
  Inductive comb_op : Type := Sum | CombModule (f : list X -> X) | UnknownComb.
  (** an element of submodule_list (graph.py:236, 260, 298) *)
  Inductive submodule : Type := Unary (f : X -> X) | Nary (f : list X -> X).
  (** a line of forward (graph.py:258, 261, 290, 299, 309); a call with no inputs is no Python since the
      bracket is cut off (graph.py:267) *)
  Inductive line : Type :=
  | Assign (dst module arg : nat) | AssignSum (dst : nat) (args : list nat) | AssignComb (dst module : nat) (args : list nat) | Return (arg : nat).
  (** used_input_names, node["input"], submodule_list, forward_f and x (graph.py:231-237) *)
  Record gen : Type := mkGen { used : list nat; inputs : Z -> list (Z * nat); modules : list submodule; forward : list line; var : nat }.
  Definition max_used (s : gen) : nat := fold_right Nat.max 0 (used s).
  (** [dict.update({k: v})] (graph.py:307) *)
  Fixpoint dict_set (k : Z) (v : nat) (l : list (Z * nat)) : list (Z * nat) :=
    match l with [] => [(k, v)] | (k', v') :: l' => if Z.eqb k k' then (k, v) :: l' else (k', v') :: dict_set k v l' end.
  Definition set_input (f : Z -> list (Z * nat)) (n : Z) (l : list (Z * nat)) : Z -> list (Z * nat) := fun m => if Z.eqb m n then l else f m.

  Variable op : Z -> Z -> edge_op.
  Variable comb : Z -> comb_op.

  (** graph.py:250-272: what is merged *)
  Definition gen_merge (n : Z) (s : gen) : res gen :=
    let args := map snd (inputs s n) in
    bind (match args with
          | [x] => Ok (mkGen (used s) (inputs s) (modules s) (forward s) x)
          | _ =>
              let m := S (max_used s) in
              match comb n with
              | Sum => Ok (mkGen (used s ++ [m]) (inputs s) (modules s) (forward s ++ [AssignSum m args]) m)
              | CombModule f => Ok (mkGen (used s ++ [m]) (inputs s) (modules s ++ [Nary f]) (forward s ++ [AssignComb m (length (modules s)) args]) m)
              | UnknownComb => Err NotImplementedError
              end
          end) (fun s => Ok (mkGen (used s) (set_input (inputs s) n []) (modules s) (forward s) (var s))).
  (** graph.py:284-307: one outgoing edge *)
  Definition gen_edge (n : Z) (rs : res gen) (v : Z) : res gen :=
    bind rs (fun s =>
    match op n v with
    | UnknownOp => Err ValueError
    | Op f =>
        let m := S (max_used s) in
        Ok (mkGen (used s ++ [m]) (set_input (inputs s) v (dict_set n m (inputs s v))) (modules s ++ [Unary f])
                  (forward s ++ [Assign m (length (modules s)) (var s)]) (var s))
    end).
  (** graph.py:237-307: one node; [last]: the last one in the order *)
  Definition gen_node (g : graph) (last : Z) (rs : res gen) (n : Z) : res gen :=
    bind rs (fun s =>
    bind (gen_merge n s) (fun s =>
    if is_nil (succs g n) && Z.ltb n last then Err NotImplementedError
    else fold_left (gen_edge n) (succs g n) (Ok s))).
  Definition broken (l : line) : bool := match l with AssignSum _ [] | AssignComb _ _ [] => true | _ => false end.
  (** graph.py:221-345 _to_pytorch; [order]: lexicographical_topological_sort.  StopIteration is a
      RuntimeError here, like the Exception for a source that cannot be read. *)
  Definition to_pytorch (g : graph) (order : list Z) : res (list submodule * list line) :=
    match filter (fun n => is_nil (preds g n)) (nodes g) with
    | [] => Err RuntimeError
    | input :: _ =>
        bind (fold_left (gen_node g (List.last order 0%Z)) order
                (Ok (mkGen [0] (fun m => if Z.eqb m input then [(0%Z, 0)] else []) [] [] 0))) (fun s =>
        if existsb broken (forward s) then Err RuntimeError
        else Ok (modules s, forward s ++ [Return (var s)]))
    end.

  (** *** Calling the module: the meaning of the lines, in Python *)
  Variable total : list X -> X.
  Definition env := nat -> option X.
  Definition assign (e : env) (k : nat) (x : X) : env := fun j => if Nat.eqb j k then Some x else e j.
  Fixpoint get_all (e : env) (l : list nat) : option (list X) :=
    match l with
    | [] => Some []
    | k :: l' => match e k, get_all e l' with Some x, Some xs => Some (x :: xs) | _, _ => None end
    end.
  (** what [forward] gives (graph.py:316-321); [total] is Python's sum *)
  Fixpoint execute (mods : list submodule) (lines : list line) (e : env) : res X :=
    match lines with
    | [] => Err RuntimeError
    | Return k :: _ => match e k with Some x => Ok x | None => Err UnboundLocalError end
    | Assign d m k :: lines' =>
        match e k, nth_error mods m with
        | Some x, Some (Unary f) => execute mods lines' (assign e d (f x))
        | None, _ => Err UnboundLocalError
        | _, _ => Err TypeError
        end
    | AssignSum d ks :: lines' =>
        match get_all e ks with Some xs => execute mods lines' (assign e d (total xs)) | None => Err UnboundLocalError end
    | AssignComb d m ks :: lines' =>
        match get_all e ks, nth_error mods m with
        | Some xs, Some (Nary f) => execute mods lines' (assign e d (f xs))
        | None, _ => Err UnboundLocalError
        | _, _ => Err TypeError
        end
    end.
  (** a call of the module with [x] (graph.py:316) *)
  Definition call_module (m : list submodule * list line) (x : X) : res X := execute (fst m) (snd m) (assign (fun _ => None) 0 x).

  (** ** A topology that is called (topologies.py:79-106) *)

  (** predecessor_inputs, next_successors, cur_successors, cur_node_idx and inputs *)
  Record walk : Type := mkWalk { received : Z -> list X; next_q : list Z; cur_q : list Z; cur : Z; value : X }.
  Variable merge_fn : list X -> X.
  (** the operation at an edge, a callable *)
  Variable edge_fn : Z -> Z -> X -> X.
  Definition has (l : list Z) (n : Z) : bool := existsb (Z.eqb n) l.
  (** topologies.py:86-106: as many turns of the loop as [fuel] *)
  Fixpoint walk_loop (fuel : nat) (g : graph) (w : walk) : res X :=
    match cur_q w, next_q w with
    | [], [] => Ok (value w)
    | _, _ =>
        match fuel with
        | O => Err OutOfFuel
        | S fuel' =>
            match cur_q w with
            | v :: q =>
                walk_loop fuel' g
                  (mkWalk (fun m => if Z.eqb m v then received w v ++ [edge_fn (cur w) v (value w)] else received w m)
                          (if has (next_q w) v then next_q w else next_q w ++ [v]) q (cur w) (value w))
            | [] =>
                match next_q w with
                | [] => Ok (value w)
                | n :: q =>
                    match received w n with
                    | [] => Err KeyError
                    | ys => walk_loop fuel' g (mkWalk (received w) q (succs g n) n (match ys with [y] => y | _ => merge_fn ys end))
                    end
                end
            end
        end
    end.
  (** topologies.py:79-106 __call__; StopIteration is a RuntimeError here *)
  Definition call_topology (fuel : nat) (g : graph) (x : X) : res X :=
    match filter (fun n => is_nil (preds g n)) (nodes g) with
    | [] => Err RuntimeError
    | n :: _ => walk_loop fuel g (mkWalk (fun m => if Z.eqb m n then [x] else []) [n] [] n x)
    end.
End Net.

(** ** Topologies (topologies.py:61-74, 109-187) *)

(** the nodes, in the order in which [add_edge] adds them *)
Definition add_node (l : list Z) (n : Z) : list Z := if existsb (Z.eqb n) l then l else l ++ [n].
Definition of_edges (es : list (Z * Z)) : graph := mkGraph (fold_left (fun l e => add_node (add_node l (fst e)) (snd e)) es []) es.
(** topologies.py:117, 140, 153, 166, 180: [dict(zip(edge_list, edge_vals))], for edges that are all different *)
Definition create_graph {A} (edge_list : list (Z * Z)) (edge_vals : list A) : graph * list (Z * Z * A) :=
  (of_edges (map fst (combine edge_list edge_vals)), combine edge_list edge_vals).
(** topologies.py:120-122 *)
Definition sequential_edges (n : nat) : list (Z * Z) := map (fun i => (Z.of_nat i + 1, Z.of_nat i + 2)%Z) (seq 0 n).
(** topologies.py:132-136 *)
Definition residual_edges : list (Z * Z) := [(1, 2); (1, 3); (2, 3)]%Z.
(** topologies.py:147 *)
Definition diamond_edges : list (Z * Z) := [(1, 2); (1, 3); (2, 4); (3, 4)]%Z.
(** topologies.py:158 *)
Definition diamond_mid_edges : list (Z * Z) := [(1, 2); (1, 3); (2, 3); (2, 4); (3, 4)]%Z.
(** topologies.py:183-184 *)
Definition dense_edges (n : nat) : list (Z * Z) :=
  List.concat (map (fun j => map (fun i => (Z.of_nat i + 1, Z.of_nat j + 1)%Z) (seq 0 j)) (seq 0 n)).
