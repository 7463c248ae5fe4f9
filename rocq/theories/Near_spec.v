(** What distances and neighbours should be, without the model's functions. *)
From Coq Require Import QArith List Bool.
From Verif Require Import Near_model.
Import ListNotations.
Local Open Scope Q_scope.
Local Open Scope list_scope.

(** What is used of the Euclidean norm *)
Definition norm_like (norm : list Q -> Q) : Prop :=
  (forall l, 0 <= norm l) /\ (forall l, norm l == 0 <-> Forall (fun x => x == 0) l) /\ (forall l l', Forall2 (fun x y => x == - y) l l' -> norm l == norm l').
(** a radius after it has grown k times *)
Fixpoint grown (distance delta : Q) (k : nat) : Q := match k with O => distance | S k => (1 + delta) * grown distance delta k end.
(** The numbers of a configuration and its categories, without the fidelity *)
Definition numbers (c : config) : list Q := flat_map (fun fh => match fh with (false, HNum (Some x)) => [x] | _ => [] end) c.
Definition places (c : config) : list nat := flat_map (fun fh => match fh with (false, HCat (Some k)) => [k] | _ => [] end) c.
