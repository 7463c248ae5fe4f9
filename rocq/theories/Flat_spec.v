(** What graphs of graphs compute. *)
From Verif Require Import Py Flat_model.
Local Open Scope list_scope.

Section Computing.
  Context {A X : Type}.
  (** what operations do, and how values are added *)
  Variables (sem : A -> X -> X) (total : list X -> X).
  Definition touches (es : list (Z * Z * hop A)) (w : Z) : Prop := exists e, In e es /\ (fst (fst e) = w \/ snd (fst e) = w).
  (** The only node without edges to it, and the only one without edges from it *)
  Definition source (es : list (Z * Z * hop A)) (s : Z) : Prop := forall w, touches es w -> (~ In w (map (fun e => snd (fst e)) es) <-> w = s).
  Definition sink (es : list (Z * Z * hop A)) (t : Z) : Prop := forall w, touches es w -> (~ In w (map (fun e => fst (fst e)) es) <-> w = t).
  (** The values that come to [w], one for each edge *)
  Definition arriving {B} (w : Z) (es : list (Z * Z * B)) (ys : list X) : list X :=
    map snd (filter (fun p => Z.eqb (snd (fst (fst p))) w) (combine es ys)).
  (** A graph is given [x] at its source, adds at every other node what comes to it, and gives what is
      at its sink. *)
  Inductive computes : hop A -> X -> X -> Prop :=
  | computes_plain a x : computes (Plain a) x (sem a x)
  | computes_sub es s t at_node ys : source es s -> sink es t -> touches es s -> touches es t ->
      Forall2 (fun e y => computes (snd e) (at_node (fst (fst e))) y) es ys ->
      (forall w, touches es w -> w <> s -> at_node w = total (arriving w es ys)) ->
      computes (Sub es) (at_node s) (at_node t).
  (** The operations that are no graphs, in their order *)
  Inductive leaves : hop A -> list A -> Prop :=
  | leaves_plain a : leaves (Plain a) [a]
  | leaves_sub es ls : Forall2 (fun e l => leaves (snd e) l) es ls -> leaves (Sub es) (List.concat ls).
  (** No edge twice or from a node to itself; one source, one sink *)
  Inductive sound_op : hop A -> Prop :=
  | sound_plain a : sound_op (Plain a)
  | sound_sub es : es <> [] -> NoDup (map fst es) -> (exists s, source es s /\ touches es s) -> (exists t, sink es t /\ touches es t) ->
      Forall (fun e => fst (fst e) <> snd (fst e) /\ sound_op (snd e)) es -> sound_op (Sub es).
  (** Values at the nodes of a flat graph *)
  Definition flat_values (F : flat_graph A) (s : Z) (at_node : Z -> X) : Prop :=
    forall n, In n (f_nodes F) -> n <> s -> at_node n = total (map (fun e => sem (snd e) (at_node (fst (fst e)))) (filter (fun e => Z.eqb (snd (fst e)) n) (f_edges F))).
End Computing.
(** Addition: the order and grouping do not matter. *)
Definition addition {X} (plus : X -> X -> X) (zero : X) : Prop :=
  (forall a b c, plus a (plus b c) = plus (plus a b) c) /\ (forall a b, plus a b = plus b a) /\ (forall a, plus a zero = a).
Definition sum_of {X} (plus : X -> X -> X) (zero : X) (l : list X) : X := fold_right plus zero l.
