(** What acquisition functions should do, without the model. *)
From Coq Require Import QArith List Bool.
Import ListNotations.
Local Open Scope Q_scope.

(** How torch's logarithm, power and root behave, as far as the statements need *)
Definition growing_log (log : Q -> Q) : Prop := forall a b, 0 < a -> a <= b -> log a <= log b.
Definition growing_power (power : Q -> Q -> Q) : Prop :=
  (forall a b e, 0 < a -> a <= b -> 0 <= e -> power a e <= power b e) /\ (forall a e, 0 < a -> 0 <= e -> 0 < power a e).
(** A value is at least as good as another *)
Definition no_worse (x y : option Q) : Prop := exists a b, x = Some a /\ y = Some b /\ b <= a.
(** The least of some numbers *)
Definition least (m : Q) (l : list Q) : Prop := In m l /\ forall a, In a l -> m <= a.
(** How many observations are at the highest fidelity *)
Definition complete (x : option (Q * Q)) : bool := match x with Some (v, up) => Qle_bool up v | None => false end.
