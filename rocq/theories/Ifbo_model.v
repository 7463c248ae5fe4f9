(** ifBO (neps/optimizers/multi_fidelity/ifbo.py and
    neps/optimizers/bayesian_optimization/models/ftpfn.py).

    The arithmetic is a parameter (Dom_model).  Configurations without their fidelity, and the
    rows that they are encoded to, are opaque: [enc] and [dec] stand for the encoder.  The
    surrogate (a neural network) is seen only through the scores that it gives to rows, which
    are arbitrary, as are the samples of new configurations and the position of the greatest
    score.  Everything is computed in one precision; the code uses 32 bits for budgets and
    numbers of configurations, so a number above 2^24 is not modelled faithfully. *)
From Verif Require Export Space_model.
From Coq Require Export Ascii.
From Coq Require Import DecimalString.
Open Scope nat_scope.
Local Notation length := List.length.

(** [config_id.split("_", maxsplit=1)[0]] *)
Fixpoint before_us (s : string) : string :=
  match s with
  | EmptyString => EmptyString
  | String c r => if Ascii.eqb c "_"%char then EmptyString else String c (before_us r)
  end.
(** [int(s)] of decimal digits; Python also accepts signs, blanks and underscores between
    digits, which ifBO's identifiers do not have *)
Definition py_int (s : string) : res nat :=
  match NilZero.uint_of_string s with Some d => Ok (Nat.of_uint d) | None => Err ValueError end.
(** ifbo.py:172, ftpfn.py:154 *)
Definition cid_of (id : string) : res nat := py_int (before_us id).
(** [str(z)] of an integer *)
Definition py_str_Z (z : Z) : string :=
  if Z.ltb z 0 then String "-"%char (py_str_nat (Z.to_nat (- z))) else py_str_nat (Z.to_nat z).
(** ifbo.py:190, 275, 283, 285: [f"{c}_{k}"] *)
Definition ifbo_id (c : nat) (k : Z) : string := (py_str_nat c ++ "_" ++ py_str_Z k)%string.

Section Ifbo.
  Context {T : Type} (A : arith T).
  (** Python's [//] of numbers *)
  Variable floordiv : T -> T -> T.

  (** ifbo.py:61-71: the new lower bound and the number of steps *)
  Definition fid_step (l u step : T) : res (T * Z) :=
    if aeqb A step (aZ A 0) then Err ZeroDivisionError
    else
      let x := asub A u l in
      match aint A (floordiv x step) with
      | None => Err ValueError
      | Some n =>
          if Z.leb n 0 then Err ValueError
          else let r := asub A x (amul A (aZ A n) step) in Ok (aadd A l r, n)
      end.

  (** ifbo.py:32-83 (_adjust_pipeline_space_to_match_stepsize) *)
  Definition adjust (s : space T) (step : T) : res (space T * Z) :=
    match s_fidelity s with
    | None => Err AssertionError
    | Some name =>
        match lookup name s with
        | Some (PF p) =>
            if fp_log p then Err NotImplementedError
            else
              bind (fid_step (fp_lower p) (fp_upper p) step) (fun ln =>
              bind (float_parameter A (fst ln) (fp_upper p) (fp_log p) true (fp_default p) (fp_conf p)) (fun q =>
              bind (search_space (set_key name (PF q) s)) (fun s' => Ok (s', snd ln))))
        | Some (PI p) =>
            if ip_log p then Err NotImplementedError
            else
              bind (fid_step (aZ A (ip_lower p)) (aZ A (ip_upper p)) step) (fun ln =>
              bind (integer_parameter A (fst ln) (aZ A (ip_upper p)) (ip_log p) true
                      (opt_map (aZ A) (ip_default p)) (ip_conf p)) (fun q =>
              bind (search_space (set_key name (PI q) s)) (fun s' => Ok (s', snd ln))))
        | _ => Err AssertionError
        end
    end.

  (** What the constructor keeps, as far as it matters (ifbo.py:128-164) *)
  Record ifbo : Type := mkIfbo {
    ib_space : space T;
    ib_min : T;                   (* _min_budget *)
    ib_bins : Z;                  (* fid_bins *)
    ib_fid : domain T;            (* _fid_domain *)
    ib_budget : domain T;         (* _budget_domain *)
    ib_ix : domain T }.           (* _budget_ix_domain *)

  (** ifbo.py:89-164; the encoder and the prior are made elsewhere *)
  Definition ifbo_new (s : space T) (step : T) : res ifbo :=
    bind (adjust s step) (fun sn =>
    let s' := fst sn in
    match s_fidelity s' with
    | None => Err AssertionError
    | Some name =>
        bind (match lookup name s' with
              | Some (PF p) => Ok (fp_lower p, fp_upper p, fp_dom p)
              | Some (PI p) => Ok (aZ A (ip_lower p), aZ A (ip_upper p), ip_dom p)
              | _ => Err AssertionError
              end) (fun lud =>
        let '(l, u, d) := lud in
        if aeqb A u (aZ A 0) then Err ZeroDivisionError
        else
          bind (floating A (adiv A (aZ A 1) u) (aZ A 1) false None false) (fun b =>
          bind (indices A (snd sn) false) (fun ix =>
          Ok (mkIfbo s' l (snd sn) d b ix))))
    end).

  (** ** Trials and rows *)
  Variables (C V : Type) (enc : C -> V) (dec : V -> C).

  (** A trial: identifier, configuration, fidelity, report (with its loss if there is one) *)
  Record trial : Type := mkTr { t_id : string; t_config : C; t_fid : T; t_report : option (option T) }.
  (** A row: number of the configuration plus one (zero: a new one), budget, encoded values *)
  Record row : Type := mkRow { r_id : nat; r_budget : T; r_vals : V }.

  Definition nan : T := adiv A (aZ A 0) (aZ A 0).
  Definition is_nan (x : T) : bool := negb (aeqb A x x).
  (** [tensor.max()] and [tensor.min()]: NaN if there is one *)
  Definition t_max (x : T) (l : list T) : T :=
    fold_left (fun a b => if is_nan a || is_nan b then nan else py_max A a b) l x.
  Definition t_min (x : T) (l : list T) : T :=
    fold_left (fun a b => if is_nan a || is_nan b then nan else py_min A a b) l x.

  (** ftpfn.py:172-181, [error_value] 0 and [pending_value] NaN *)
  Definition loss_of (t : trial) : T :=
    match t_report t with None => nan | Some None => aZ A 0 | Some (Some x) => x end.

  (** ftpfn.py:109-192 (encode_ftpfn): the rows and the scores *)
  Definition encode_ftpfn (o : ifbo) (trials : list trial) : res (list row * list T) :=
    bind (mapM (fun t => bind (cid_of (t_id t)) (fun c =>
            Ok (mkRow (c + 1) (cast A (ib_budget o) (ib_fid o) (t_fid t)) (enc (t_config t))))) trials) (fun rows =>
    match map loss_of trials with
    | [] => Err RuntimeError
    | y :: ys =>
        if altb A (aZ A 1) (t_max y ys) || altb A (t_min y ys) (aZ A 0) then Err RuntimeError
        else Ok (rows, map (fun y => asub A (aZ A 1) y) (y :: ys))
    end).

  (** ftpfn.py:19-37 (_keep_highest_budget_evaluation): sorted by budget and then, in a stable
      way, by number, the last one of each number.  Where two budgets of a configuration are
      equal the code takes any of the two.  NaN is sorted as the greatest. *)
  Fixpoint insert_by (le : row -> row -> bool) (x : row) (l : list row) : list row :=
    match l with
    | [] => [x]
    | y :: l' => if le x y then x :: l else y :: insert_by le x l'
    end.
  Definition sort_by (le : row -> row -> bool) (l : list row) : list row := fold_right (insert_by le) [] l.
  Definition budget_le (x y : row) : bool := is_nan (r_budget y) || ale A (r_budget x) (r_budget y).
  Definition id_le (x y : row) : bool := Nat.leb (r_id x) (r_id y).
  Fixpoint last_of_each (l : list row) : list row :=
    match l with
    | [] => []
    | x :: l' =>
        match l' with
        | [] => [x]
        | y :: _ => if Nat.eqb (r_id x) (r_id y) then last_of_each l' else x :: last_of_each l'
        end
    end.
  Definition keep_highest (l : list row) : list row := last_of_each (sort_by id_le (sort_by budget_le l)).

  (** Rows of new configurations (ftpfn.py:246-251, 262, 287) *)
  Definition new_rows (o : ifbo) (samples : list V) : list row :=
    map (mkRow 0 (d_lower A (ib_budget o))) samples.

  Section Acquire.
    Variables (o : ifbo) (acq : list row -> list T) (argmax : list T -> nat).

    (** The row with the greatest score, and the score *)
    Definition best_of (l : list row) : res (T * row) :=
      let scores := acq l in
      let i := argmax scores in
      match nth_error scores i, nth_error l i with
      | Some x, Some r => Ok (x, r)
      | _, _ => Err IndexError
      end.
    (** ftpfn.py:269-271, 292-294; no best so far: the score is minus infinity (scores are never
        that) and the row is empty *)
    Definition better (best : option (T * row)) (cand : T * row) : option (T * row) :=
      match best with
      | None => if is_nan (fst cand) then None else Some cand
      | Some b => if altb A (fst b) (fst cand) then Some cand else best
      end.
    (** ftpfn.py:256-294: one sampler, with the samples around its best one *)
    Definition try_sampler (best : option (T * row)) (s : list V * (V -> list V)) : res (option (T * row)) :=
      bind (best_of (new_rows o (fst s))) (fun c =>
      let best := better best c in
      bind (best_of (new_rows o (snd s (r_vals (snd c))))) (fun c' =>
      Ok (better best c'))).
    Definition fold_samplers (samplers : list (list V * (V -> list V))) (best : option (T * row))
      : res (option (T * row)) :=
      fold_left (fun r s => bind r (fun b => try_sampler b s)) samplers (Ok best).

    (** ftpfn.py:212-297 (acquire_next_from_ftpfn) *)
    Definition acquire (continuation : list row) (samplers : list (list V * (V -> list V))) : res (option row) :=
      let existing := filter (fun r => altb A (r_budget r) (d_upper A (ib_budget o))) (keep_highest continuation) in
      bind (match existing with [] => Ok None | _ => bind (best_of existing) (fun c => Ok (Some c)) end) (fun best =>
      bind (fold_samplers samplers best) (fun b => Ok (opt_map snd b))).
  End Acquire.

  Definition as_int (x : T) : res Z := match aint A x with Some z => Ok z | None => Err ValueError end.

  (** ifbo.py:166-286 (ask).  [design]: the initial design, made in the first call
      (initial_design.py).  The fantasised scores (208-216) and the random horizon (224-242) only
      matter for [acq]; [rng.randint(low, high)] raises unless [low < high]. *)
  Definition ifbo_ask (o : ifbo) (design : list C) (acq : list row -> list T) (argmax : list T -> nat)
    (samplers : list (list V * (V -> list V))) (trials : list trial) : res (sampled (C * T)) :=
    bind (mapM (fun t => cid_of (t_id t)) trials) (fun ids =>
    let new_id := match ids with [] => 0 | _ => list_max ids + 1 end in
    match nth_error design new_id with
    | Some c => Ok (mkSampled (c, ib_min o) (ifbo_id new_id 0) None)
    | None =>
        bind (encode_ftpfn o trials) (fun xy =>
        let not_pending := map fst (filter (fun ry => negb (is_nan (snd ry))) (combine (fst xy) (snd xy))) in
        if Z.leb (ib_bins o - 1) 0 then Err ValueError
        else
          bind (acquire o acq argmax not_pending samplers) (fun best =>
          match best with
          | None => Err IndexError
          | Some r =>
              let fid := cast A (ib_fid o) (ib_budget o) (r_budget r) in
              let config := dec (r_vals r) in
              match r_id r with
              | O => Ok (mkSampled (config, fid) (ifbo_id new_id 0) None)
              | S c =>
                  bind (as_int (cast A (ib_ix o) (ib_fid o) fid)) (fun budget_ix =>
                  let next_ix := (budget_ix + 1)%Z in
                  let next_fid := cast A (ib_fid o) (ib_ix o) (aZ A next_ix) in
                  Ok (mkSampled (config, next_fid) (ifbo_id c next_ix) (Some (ifbo_id c budget_ix))))
              end
          end))
    end).
End Ifbo.
Arguments ifbo T : clear implicits. Arguments trial T C : clear implicits. Arguments row T V : clear implicits.
Arguments mkTr {T C}. Arguments t_id {T C}. Arguments t_config {T C}. Arguments t_fid {T C}. Arguments t_report {T C}.
Arguments mkRow {T V}. Arguments r_id {T V}. Arguments r_budget {T V}. Arguments r_vals {T V}.
Arguments mkIfbo {T}. Arguments ib_space {T}. Arguments ib_min {T}. Arguments ib_bins {T}.
Arguments ib_fid {T}. Arguments ib_budget {T}. Arguments ib_ix {T}.
Arguments ifbo_ask {T} A {C V}. Arguments loss_of {T} A {C}. Arguments encode_ftpfn {T} A {C V}. Arguments insert_by {T V}.
Arguments sort_by {T V}. Arguments budget_le {T} A {V}. Arguments id_le {T V}. Arguments last_of_each {T V}.
Arguments keep_highest {T} A {V}. Arguments new_rows {T} A {V}. Arguments best_of {T V}. Arguments better {T} A {V}.
Arguments try_sampler {T} A {V}. Arguments fold_samplers {T} A {V}. Arguments acquire {T} A {V}.

(** [//] of exact numbers, and of floats: the floor of the exact quotient (CPython computes it
    with fmod, so that it is not the floor of the rounded quotient). *)
Definition q_floordiv (x y : option Q) : option Q :=
  match x, y with
  | Some a, Some b => if Qeq_bool b 0 then None else Some (inject_Z (Qfloor (a / b)))
  | _, _ => None
  end.
Definition sf_floordiv (prec emax : Z) (x y : spec_float) : spec_float :=
  match sf_Q x, sf_Q y with
  | Some a, Some b => if Qeq_bool b 0 then S754_nan else sf_of_Z prec emax (Qfloor (a / b))
  | _, _ => S754_nan
  end.
