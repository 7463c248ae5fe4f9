(** What is expected of the ladder of budgets. *)
From Verif Require Export Ladder_model.
Open Scope Q_scope.

(** A legal fidelity parameter (numerical.py:99-103; the optimizers divide by lower). *)
Definition legal (f : fidelity) : Prop :=
  0 < f_lower f /\ f_lower f < f_upper f /\
  (f_int f = true -> (exists a, f_lower f = inject_Z a) /\ (exists b, f_upper f = inject_Z b)).

(** The whole part of the logarithm to base eta. *)
Definition whole_log (eta : nat) (q : Q) (z : Z) : Prop :=
  (0 <= z)%Z /\ inject_Z (Z.of_nat eta ^ z) <= q /\ q < inject_Z (Z.of_nat eta ^ (z + 1)).
Definition exact (lg : Q -> nat -> Z) : Prop :=
  forall q eta, (2 <= eta)%nat -> 1 <= q -> whole_log eta q (lg q eta).
(** Rounded, but never up. *)
Definition never_above (lg : Q -> nat -> Z) : Prop :=
  forall q eta, (2 <= eta)%nat -> 1 <= q ->
  (0 <= lg q eta)%Z /\ inject_Z (Z.of_nat eta ^ lg q eta) <= q.

(** Budgets [m] of rungs: within the bounds, reaching the upper bound, growing, and
    by a factor eta up to truncation. *)
Definition good_ladder (f : fidelity) (eta : nat) (lo hi : nat) (m : nat -> option Q) : Prop :=
  (lo <= hi)%nat /\
  (forall r, (exists x, m r = Some x) <-> (lo <= r <= hi)%nat) /\
  (forall r x, m r = Some x -> f_lower f <= x /\ x <= f_upper f) /\
  (exists x, m hi = Some x /\ x == f_upper f) /\
  (forall r x y, m r = Some x -> m (S r) = Some y ->
     x < y /\
     (f_int f = false -> x * inject_Z (Z.of_nat eta) == y) /\
     (f_int f = true -> x * inject_Z (Z.of_nat eta) <= y /\ y < (x + 1) * inject_Z (Z.of_nat eta))).
