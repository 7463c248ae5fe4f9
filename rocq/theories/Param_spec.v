(** What is expected of hyperparameters. *)
From Verif Require Export Param_model Dom_spec.
Open Scope nat_scope.
Local Notation length := List.length.

Section Reach.
  Context {T : Type} (A : arith T).

  (** All objects that can come about from a FloatParameter with bounds [l], [u]: also the
      object after a method has raised. *)
  Inductive freach (l u : T) : fparam T -> Prop :=
  | fr_new log fid d c p : float_parameter A l u log fid d c = Ok p -> freach l u p
  | fr_set p v : freach l u p -> freach l u (fst (f_set_value A p v))
  | fr_default p v : freach l u p -> freach l u (fst (f_set_default A p v))
  | fr_conf p c : freach l u p -> freach l u (fst (f_set_confidence p c))
  | fr_load p v : freach l u p -> freach l u (fst (f_load A p v))
  | fr_clone p q : freach l u p -> f_clone A p = Ok q -> freach l u q
  | fr_sample p draw q : freach l u p -> f_sample A p draw = Ok q -> freach l u q
  | fr_neighbour p n draws qs q : freach l u p -> f_neighbours A p n draws = Ok qs -> In q qs -> freach l u q
  | fr_mutate p parent s draw draws q : freach l u p -> f_mutate A p parent s draw draws = Ok q -> freach l u q
  | fr_cross p p1 p2 draws q1 q2 q : freach l u p -> f_crossover A p p1 p2 draws = Ok (q1, q2) ->
      q = q1 \/ q = q2 -> freach l u q.

  (** The same for an IntegerParameter with the (rounded) bounds [l], [u]; [checked]: without
      loading a number that is not within the bounds and without a default that is refused. *)
  Inductive ireach (checked : bool) (l u : Z) : iparam T -> Prop :=
  | ir_new lx ux log fid d c p : integer_parameter A lx ux log fid d c = Ok p ->
      round_int A lx = Ok l -> round_int A ux = Ok u -> ireach checked l u p
  | ir_set p v : ireach checked l u p -> ireach checked l u (fst (i_set_value A p v))
  | ir_default p v : ireach checked l u p -> (checked = true -> exists x, snd (i_set_default A p v) = Ok x) ->
      ireach checked l u (fst (i_set_default A p v))
  | ir_conf p c : ireach checked l u p -> ireach checked l u (fst (i_set_confidence p c))
  | ir_load p v : ireach checked l u p -> (checked = true -> z_within A l u v = true) -> ireach checked l u (fst (i_load A p v))
  | ir_clone p q : ireach checked l u p -> i_clone A p = Ok q -> ireach checked l u q
  | ir_sample p draw q : ireach checked l u p -> i_sample A p draw = Ok q -> ireach checked l u q
  | ir_neighbour p n draws qs q : ireach checked l u p -> i_neighbours A p n draws = Ok qs -> In q qs -> ireach checked l u q
  | ir_mutate p parent s draw draws q : ireach checked l u p -> i_mutate A p parent s draw draws = Ok q -> ireach checked l u q
  | ir_cross p p1 p2 draws q1 q2 q : ireach checked l u p -> i_crossover A p p1 p2 draws = Ok (q1, q2) ->
      q = q1 \/ q = q2 -> ireach checked l u q.
End Reach.

(** The same for a CategoricalParameter with the given choices; [checked]: without values
    that are refused. *)
Inductive creach (checked : bool) (cs : list pyval) : cparam -> Prop :=
| cr_new d c p : categorical_parameter cs d c = Ok p -> creach checked cs p
| cr_set p v : creach checked cs p -> (checked = true -> exists x, snd (c_set_value p v) = Ok x) ->
    creach checked cs (fst (c_set_value p v))
| cr_default p v : creach checked cs p -> creach checked cs (fst (c_set_default p v))
| cr_conf p c : creach checked cs p -> creach checked cs (fst (c_set_confidence p c))
| cr_clone p q : creach checked cs p -> c_clone p = Ok q -> creach checked cs q
| cr_sample p draw q : creach checked cs p -> c_sample p draw = Ok q -> creach checked cs q
| cr_neighbour p draws qs q : creach checked cs p -> c_neighbours p draws = Ok qs -> In q qs -> creach checked cs q
| cr_mutate p parent s draw q : creach checked cs p -> (forall r, parent = Some r -> creach checked cs r) ->
    c_mutate p parent s draw = Ok q -> creach checked cs q
| cr_cross p p1 p2 q1 q2 q : creach checked cs p -> creach checked cs p1 -> (forall r, p2 = Some r -> creach checked cs r) ->
    c_crossover p p1 p2 = Ok (q1, q2) -> q = q1 \/ q = q2 -> creach checked cs q.

(** One of the choices, up to [==]. *)
Definition is_choice (cs : list pyval) (v : pyval) : Prop := exists c, In c cs /\ py_eqb c v = true.
(** The position of the first choice that is equal. *)
Definition position (cs : list pyval) (v : pyval) (i : nat) : Prop :=
  (exists c, nth_error cs i = Some c /\ py_eqb c v = true) /\
  forall j c, j < i -> nth_error cs j = Some c -> py_eqb c v = false.

(** The number at the fraction [t] of the way between the bounds, on the scale of the
    parameter. *)
Definition fraction (lnf expf : Q -> Q) (p : fparam (option Q)) (a b t : Q) : Q :=
  (if fp_log p then expf (t * (lnf b - lnf a) + lnf a) else t * (b - a) + a)%Q.
(** A number of the unit interval. *)
Definition in_unit (x : option Q) : bool := match x with Some q => Qle_bool 0 q && Qle_bool q 1 | None => false end.
(** There is no NaN among the choices. *)
Definition no_nan (cs : list pyval) : Prop := ~ In (VFloat FNaN) cs.
