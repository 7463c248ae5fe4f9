(** Distances of configurations, neighbours of the incumbent, and when priors are used:
    neps/search_spaces/search_space.py:505-550, neps/optimizers/multi_fidelity_prior/utils.py:106-129,
    neps/optimizers/multi_fidelity/sampling_policy.py:71-92, 128-159, 303-347.

    Numbers are rationals.  The Euclidean norm is an argument, random samples and numbers are arguments. *)
From Coq Require Import QArith List Bool.
From Verif Require Export Base Enc_model.
From Verif Require Import Acq_model.
Import ListNotations.
Local Open Scope Q_scope.
Local Open Scope list_scope.
Local Notation length := List.length.

(** ** Distances *)
(** a hyperparameter with its value: constants, graphs, categoricals (the place of the value among the choices,
    categorical.py:239-240), numbers (normalized); [None]: no value; others (search_space.py:529-548) *)
Inductive hp : Type := HConst | HGraph (g : nat) | HCat (place : option nat) | HNum (x : option Q) | HOther.
(** a hyperparameter and whether it is the fidelity *)
Definition config : Type := list (bool * hp).
(** search_space.py:505-550 get_normalized_hp_categories(ignore_fidelity=True): numbers, categories, graphs *)
Fixpoint categories (c : config) : res (list Q * list nat * list nat) :=
  match c with
  | [] => Ok ([], [], [])
  | (true, _) :: c => categories c
  | (false, HConst) :: c => categories c
  | (false, HGraph g) :: c => bind (categories c) (fun '(xs, ks, gs) => Ok (xs, ks, g :: gs))
  | (false, HCat (Some k)) :: c => bind (categories c) (fun '(xs, ks, gs) => Ok (xs, k :: ks, gs))
  | (false, HNum (Some x)) :: c => bind (categories c) (fun '(xs, ks, gs) => Ok (x :: xs, ks, gs))
  | (false, HCat None) :: _ | (false, HNum None) :: _ => Err AssertionError
  | (false, HOther) :: _ => Err NotImplementedError
  end.
(** np.array(a) - np.array(b) (utils.py:120); lengths that differ do not occur in one space *)
Definition minus (a b : list Q) : list Q := map (fun xy => fst xy - snd xy) (combine a b).
(** scipy.spatial.distance.hamming (utils.py:125-127): the share of places that differ *)
Definition hamming (a b : list nat) : Q :=
  inject_Z (Z.of_nat (length (filter (fun xy => negb (Nat.eqb (fst xy) (snd xy))) (combine a b)))) / inject_Z (Z.of_nat (length a)).
(** utils.py:106-129 compute_config_dist; [norm]: np.linalg.norm *)
Definition config_dist (norm : list Q -> Q) (c1 c2 : config) : res Q :=
  bind (categories c1) (fun '(x1, k1, _) => bind (categories c2) (fun '(x2, k2, _) =>
  if Nat.eqb (length x1) (length x2) && Nat.eqb (length k1) (length k2)
  then Ok (norm (minus (x1 ++ [0]) (x2 ++ [0])) + hamming (k1 ++ [0%nat]) (k2 ++ [0%nat]))
  else Err ValueError)).

(** ** Neighbours *)
(** sampling_policy.py:141-159, the loop: [ds i] is the distance of the i-th sample; the sample taken and the
    radius then *)
Fixpoint neighbour (fuel threshold : nat) (tolerance delta : Q) (ds : nat -> Q) (i counter : nat) (distance : Q) : res (nat * Q) :=
  match fuel with
  | O => Err OutOfFuel
  | S fuel =>
      if qltb (ds i) (if qltb distance tolerance then tolerance else distance) then Ok (i, distance)
      else
        let counter := S counter in
        if Nat.ltb threshold counter then neighbour fuel threshold tolerance delta ds (S i) 0 (distance + distance * delta)
        else neighbour fuel threshold tolerance delta ds (S i) counter distance
  end.
(** sampling_policy.py:30-32, 128-159 sample_neighbour *)
Definition sample_neighbour (fuel : nat) (ds : nat -> Q) (distance : Q) : res (nat * Q) :=
  neighbour fuel (N.to_nat 1000) (1 # 100) (1 # 100) ds 0 0 distance.

(** ** Priors *)
(** sampling_policy.py:76-79 FixedPriorPolicy *)
Definition fixed_prior (fraction : Q) : res Q := if Qle_bool 0 fraction && Qle_bool fraction 1 then Ok fraction else Err AssertionError.
(** sampling_policy.py:87-92: is the sample from the prior; [u]: np.random.uniform() *)
Definition from_prior (fraction u : Q) : bool := qltb u fraction.
(** sampling_policy.py:329-344 update_model: the exponent with which the prior weighs, if it does *)
Definition prior_weight (prior : bool) (decay_t : option Q) : res (option Q) :=
  if prior then
    match decay_t with
    | None => Err AssertionError
    | Some t =>
        if Qeq_bool t 0 then Err ZeroDivisionError
        else if qltb (10 / t) (1 # 10000) then Ok (Some (10 / t)) else Ok None
    end
  else Ok None.
