(** The pool of candidates of the acquisition sampler:
    neps/optimizers/bayesian_optimization/acquisition_samplers/mutation_sampler.py, random_sampler.py,
    base_acq_sampler.py.

    [X]: configurations; sizes are natural numbers (a [mutate_size] that is a fraction is the number
    int(mutate_size * pool_size) of lines 118-121); losses and acquisition values are multiples of one
    unit, as integers. *)
From Verif Require Import Py.
Local Open Scope nat_scope.
Local Open Scope list_scope.
Local Notation length := List.length.

Section Pool.
  Context {X : Type}.
  (** [mutate t x]: what the [t]-th call of [mutate] gives for [x]; [eqb]: ==; [hash t c]: what _hash gives
      for the child [c] of the [t]-th call: lines 134-135 hash the view that [values] makes, which has no
      hash but its address *)
  Variables (mutate : nat -> X -> res X) (eqb : X -> X -> bool) (hash : nat -> X -> Z).

  (** mutation_sampler.py:143-164, the [while]: the calls of [mutate] so far, the patience left, and the
      child that was kept, with its hash *)
  Fixpoint attempts (allow : bool) (patience t : nat) (config : X) (seen : list Z) : nat * nat * option (X * Z) :=
    match patience with
    | O => (t, O, None)
    | S rest =>
        match mutate t config with
        | Err _ => attempts allow rest (S t) config seen
        | Ok child =>
            let h := hash t child in
            if negb allow && (eqb child config || existsb (Z.eqb h) seen) then attempts allow rest (S t) config seen
            else (S t, patience, Some (child, h))
        end
    end.
  (** mutation_sampler.py:142-164, the [for] over [range(per_arch)]; [kept]: children and hashes, the last
      one first *)
  Fixpoint children (allow : bool) (per_arch patience t : nat) (config : X) (kept : list (X * Z)) : nat * list (X * Z) :=
    match per_arch with
    | O => (t, kept)
    | S k =>
        match attempts allow patience t config (map snd kept) with
        | (t', rest, None) => children allow k rest t' config kept
        | (t', rest, Some c) => children allow k rest t' config (c :: kept)
        end
    end.
  (** mutation_sampler.py:140-164, the [for] over [best_configs] *)
  Fixpoint all_children (allow : bool) (per_arch patience t : nat) (configs : list X) (kept : list (X * Z)) : list (X * Z) :=
    match configs with
    | [] => kept
    | c :: configs' => let '(t', kept') := children allow per_arch patience t c kept in all_children allow per_arch patience t' configs' kept'
    end.
  (** mutation_sampler.py:126-129: [sorted], which is stable, by the loss *)
  Fixpoint insert_loss (x : X * Z) (l : list (X * Z)) : list (X * Z) :=
    match l with
    | [] => [x]
    | y :: l' => if Z.leb (snd x) (snd y) then x :: l else y :: insert_loss x l'
    end.
  Definition sort_loss (l : list (X * Z)) : list (X * Z) := fold_right insert_loss [] l.
  (** mutation_sampler.py:123-130; [data]: configurations and losses (zip of y and x) *)
  Definition best_configs (n_best : nat) (data : list (X * Z)) : list X :=
    firstn n_best (map fst (sort_loss data)).
  (** mutation_sampler.py:108-174 create_pool; [random i]: the [i]-th configuration that the random sampler
      gives (random_sampler.py:18-21, base_acq_sampler.py:28-31) *)
  Definition create_pool (random : nat -> X) (allow : bool) (n_best mutate_size patience pool_size : nat) (data : list (X * Z)) : res (list X) :=
    match data with
    | [] => Ok (map random (seq 0 pool_size))
    | _ =>
        let n := if Nat.ltb (length data) n_best then length data else n_best in
        if Nat.eqb n 0 then Err ZeroDivisionError
        else
          let pool := rev (map fst (all_children allow (Nat.div mutate_size n) patience 0 (best_configs n data) [])) in
          Ok (pool ++ map random (seq 0 (pool_size - length pool)))
    end.
End Pool.

(** np.unique with return_index: the values in order, each with the index of its first occurrence *)
Fixpoint insert_value (v : Z) (i : nat) (l : list (Z * nat)) : list (Z * nat) :=
  match l with
  | [] => [(v, i)]
  | (w, j) :: l' => if Z.ltb v w then (v, i) :: l else if Z.eqb v w then (v, i) :: l' else (w, j) :: insert_value v i l'
  end.
(** mutation_sampler.py:32 *)
Fixpoint unique (i : nat) (eis : list Z) : list (Z * nat) :=
  match eis with [] => [] | v :: eis' => insert_value v i (unique (S i) eis') end.
Section Propose.
  (** np.argpartition for an array and a position in it, and Tensor.topk's indices *)
  Variables (argpartition : list Z -> nat -> list nat) (topk : list Z -> nat -> list nat).
  (** mutation_sampler.py:22-45 _propose_location with return_distinct: the indices of the candidates.  The
      values [eis] are the same for all candidates at once and for each alone.  A position that is not in the
      array is a ValueError of argpartition, more than there are a RuntimeError of topk; [-0:] is all. *)
  Definition propose_location (eis : list Z) (top_n : nat) : res (list nat) :=
    let u := unique 0 eis in
    if (if Nat.eqb top_n 0 then Nat.ltb 0 (length u) else Nat.leb top_n (length u)) then
      let k := if Nat.eqb top_n 0 then 0 else length u - top_n in
      Ok (map (fun j => snd (nth j u (0%Z, 0))) (skipn k (argpartition (map fst u) k)))
    else if Nat.leb top_n (length eis) then Ok (topk eis top_n) else Err RuntimeError.
End Propose.
(** mutation_sampler.py:88-106 sample_batch, 84-86 sample; [value]: the acquisition function *)
Definition sample_batch {X} (argpartition topk : list Z -> nat -> list nat) (value : X -> Z) (pool : res (list X)) (batch : nat) : res (list X) :=
  bind pool (fun pool =>
  bind (propose_location argpartition topk (map value pool) batch) (fun is =>
  Ok (flat_map (fun i => match nth_error pool i with Some x => [x] | None => [] end) is))).
