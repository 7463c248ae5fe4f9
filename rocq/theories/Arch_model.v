(** Architecture parameters: neps/search_spaces/architecture/graph_grammar.py:31-362, api.py:40-165.

    [V]: the graphs that [value] gives; [repr]: from_stringTree_to_graph_repr (graph_grammar.py:257-266,
    with the default new_graph_repr_func=False).  Texts that are sampled, mutated and so on are
    arguments.  [normalized_value] is not modelled, neither is the graph that the parameter is itself,
    which [clear_graph] empties. *)
From Verif Require Import Py Prune_model.
From Coq Require Import String.
Local Open Scope nat_scope.
Local Open Scope list_scope.
Local Notation length := List.length.

Section Arch.
  Context {V : Type}.
  Variable repr : string -> res V.

  (** string_tree, _function_id, _value, default (graph_grammar.py:226-230, neps/search_spaces/parameter.py:62-71) *)
  Record param : Type := mkParam { tree : string; fid : string; val : option V; default : option string }.
  (** graph_grammar.py:191-234: a new one *)
  Definition new_param : param := mkParam EmptyString EmptyString None None.
  (** graph_grammar.py:352-356 reset *)
  Definition reset (p : param) : param := mkParam EmptyString EmptyString None (default p).
  (** graph_grammar.py:246-268 value: what it gives, and the parameter afterwards *)
  Definition get_value (p : param) : res V * param :=
    match val p with
    | Some v => (Ok v, p)
    | None => match repr (tree p) with Ok v => (Ok v, mkParam (tree p) (fid p) (Some v) (default p)) | Err e => (Err e, p) end
    end.
  (** graph_grammar.py:321-327 id; string_tree_to_id gives the text itself (344-346) *)
  Definition get_id (p : param) : res string * param :=
    if String.eqb (fid p) EmptyString then
      if String.eqb (tree p) EmptyString then (Err ValueError, p)
      else (Ok (tree p), mkParam (tree p) (tree p) (val p) (default p))
    else (Ok (fid p), p).
  (** graph_grammar.py:333-338 create_from_id *)
  Definition create_from_id (s : string) (p : param) : res unit * param :=
    let p1 := mkParam EmptyString s None (default (reset p)) in
    match get_id p1 with
    | (Err e, p2) => (Err e, p2)
    | (Ok i, p2) =>
        match get_value (mkParam i (fid p2) (val p2) (default p2)) with
        | (Err e, p3) => (Err e, p3)
        | (Ok _, p3) => (Ok tt, p3)
        end
    end.
  (** graph_grammar.py:80-96 set_value; [None]: anything that is no string *)
  Definition set_value (s : option string) (p : param) : res unit * param :=
    match s with
    | None => (Err ValueError, p)
    | Some s => create_from_id s (reset p)
    end.
  (** graph_grammar.py:98-102 set_default *)
  Definition set_default (d : option string) (p : param) : param := mkParam (tree p) (fid p) (val p) d.
  (** graph_grammar.py:137-141 load_from, with a parameter (the other one is left as it is here, only its
      _function_id may be filled in) *)
  Definition load_from_param (q : param) (p : param) : res unit * param :=
    match get_id q with (Err e, _) => (Err e, p) | (Ok i, _) => create_from_id i p end.
  (** graph_grammar.py:162-185 clone *)
  Definition clone (p : param) : param :=
    match val p with
    | Some v => mkParam (tree p) (fid p) (Some v) (default new_param)
    | None => new_param
    end.
  (** graph_grammar.py:236-244 sample; [text]: what the grammar gives *)
  Definition sample (text : string) (p : param) : res param :=
    let c := reset (clone p) in
    match get_value (mkParam text (fid c) (val c) (default c)) with
    | (Err e, _) => Err e
    | (Ok _, q) => Ok q
    end.
  (** api.py:157-160 create_new_instance_from_id *)
  Definition create_new_instance (s : string) : res param :=
    match create_from_id s new_param with (Err e, _) => Err e | (Ok _, q) => Ok q end.
  (** graph_grammar.py:270-299 mutate; [child] and [same]: what the mutation gives *)
  Definition mutate (child : string) (same : bool) : res param := if same then Err RuntimeError else create_new_instance child.
  (** graph_grammar.py:300-315 crossover; [children]: what the crossover gives *)
  Definition crossover (c1 c2 : string) : res (param * param) :=
    if String.eqb c1 EmptyString && String.eqb c2 EmptyString then Err RuntimeError
    else bind (create_new_instance c1) (fun a => bind (create_new_instance c2) (fun b => Ok (a, b))).
  (** graph_grammar.py:70-75: equality *)
  Definition same (p q : param) : res bool :=
    match fst (get_id p), fst (get_id q) with
    | Ok a, Ok b => Ok (String.eqb a b)
    | Err e, _ => Err e
    | _, Err e => Err e
    end.
End Arch.
Arguments param : clear implicits.

(** ** ArchitectureParameter *)

(** one structure (api.py:65-72): a dict, a text, or a grammar *)
Inductive struct_kind : Type := IsDict | IsText | IsGrammar.
(** the argument [structure] (api.py:54-59) *)
Inductive structure : Type := NoStructure | One (k : struct_kind) | Many (ks : list struct_kind).
(** api.py:102-110: the loop over a list; [last]: _st, if it is assigned *)
Fixpoint each_structure (last : bool) (ks : list struct_kind) : res unit :=
  match ks with
  | [] => Ok tt
  | IsGrammar :: ks' => if last then each_structure last ks' else Err UnboundLocalError
  | _ :: ks' => each_structure true ks'
  end.
(** api.py:54-164: what the factory gives for a structure; [single]: what CoreGraphGrammar makes of one
    grammar.  A list is passed on as [grammars], which GraphGrammar does not know, so that [grammar] is
    missing (graph_grammar.py:191-205). *)
Definition architecture_parameter {P} (single : struct_kind -> res P) (s : structure) : res P :=
  match s with
  | NoStructure => Err ValueError
  | One k => single k
  | Many ks => if Nat.eqb (length ks) 1 then bind (each_structure false ks) (fun _ => Err TypeError) else Err UnboundLocalError
  end.

(** ** to_pytorch *)
Section Build.
  (** [D]: the data of an edge; [attributes]: set_recursive_attribute, for the data with its op_name *)
  Context {D R : Type}.
  Variables (attributes : D -> option D -> R) (update : D -> R -> D).
  Definition set_data (d : Z -> Z -> D) (u v : Z) (x : D) : Z -> Z -> D := fun a b => if Z.eqb a u && Z.eqb b v then x else d a b.
  (** api.py:44-51: one edge; StopIteration is a RuntimeError here *)
  Definition build_edge (g : graph) (input n : Z) (rd : res (Z -> Z -> D)) (pred : Z) : res (Z -> Z -> D) :=
    bind rd (fun d =>
    bind (if Z.eqb pred input then Ok None
          else match preds g pred with [] => Err RuntimeError | q :: _ => Ok (Some (d q pred)) end) (fun before =>
    Ok (set_data d pred n (update (d pred n) (attributes (d pred n) before))))).
  (** api.py:40-51 _build; [order]: nx.topological_sort *)
  Definition build (g : graph) (order : list Z) (d : Z -> Z -> D) : res (Z -> Z -> D) :=
    match filter (fun n => is_nil (preds g n)) (nodes g) with
    | [] => Err RuntimeError
    | input :: _ => fold_left (fun rd n => fold_left (build_edge g input n) (preds g n) rd) order (Ok d)
    end.
End Build.
(** api.py:139-155 to_pytorch; [compose]: compose_functions and prune_graph, [build]: _build, [finish]:
    compile, update_op_names and Graph.to_pytorch *)
Definition api_to_pytorch {G M F} (set_recursive_attribute : option F) (compose : res G) (build : F -> G -> res G) (finish : G -> res M) : res M :=
  bind compose (fun g =>
  match set_recursive_attribute with
  | Some f => bind (build f g) finish
  | None => Err UnboundLocalError
  end).
