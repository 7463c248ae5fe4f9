(** Bayesian optimization: neps/optimizers/bayesian_optimization/optimizer.py (ask),
    neps/optimizers/initial_design.py, the data and the choice of categories in
    neps/optimizers/bayesian_optimization/models/gp.py, the check in
    acquisition_functions/cost_cooling.py, and get_loss, get_cost of
    neps/optimizers/base_optimizer.py.

    An encoded configuration is the list of its numbers, as exact multiples of 2^-1074 (Py.v).  The
    samplers, the encoder and the optimization of the acquisition function are given from outside:
    what they return is arbitrary.  Of the gaussian process only this is kept: botorch's Standardize
    raises for no observations, and SingleTaskGP raises for targets that are not finite after it
    (InputDataError, here RuntimeError).  Overflow in the mean and the deviation of finite targets
    is left out. *)
From Coq Require Import String.
From Verif Require Import Py Trial_model Init_model Space_model.
Local Open Scope nat_scope.
Local Open Scope string_scope.
Local Open Scope list_scope.
Local Notation length := List.length.

Definition row := list fl.

(** ** The initial design *)
(** The order of torch.unique(..., dim=0): by the first number, then by the second, and so on *)
Fixpoint row_ltb (a b : row) : bool :=
  match a, b with
  | [], [] => false
  | [], _ :: _ => true
  | _ :: _, [] => false
  | x :: a', y :: b' => if fl_ltb x y then true else if fl_ltb y x then false else row_ltb a' b'
  end.
(** torch.unique(..., dim=0) (initial_design.py:125): sorted, every row once *)
Fixpoint insert_row (x : row) (l : list row) : list row :=
  match l with
  | [] => [x]
  | y :: l' => if row_ltb x y then x :: l else if row_ltb y x then y :: insert_row x l' else l
  end.
Definition unique_rows (l : list row) : list row := fold_right insert_row [] l.

(** What is used of a hyperparameter: [hp.default], what [hp.sample_value()] gives, [hp.lower], [hp.upper] *)
Record hparam : Type := mkHP { hp_default : option pyval; hp_sample : pyval; hp_lower : pyval; hp_upper : pyval }.
(** [space.hyperparameters], [space.fidelities], and the number of [space.numerical] and [space.categoricals] *)
Record bospace : Type := mkSpace { bs_all : list (string * hparam); bs_fid : list (string * hparam); bs_ndims : nat }.

(** initial_design.py:23-25: the argument sample_fidelity *)
Inductive fidelity_arg : Type := FMin | FMax | FTrue | FNumber (v : pyval) | FMap (d : dict) | FOther.
(** initial_design.py:21: the argument sample_size *)
Inductive size_arg : Type := NDim | NNone | NInt (z : Z).

(** initial_design.py:62-93 *)
Definition design_fids (s : bospace) (f : fidelity_arg) : res dict :=
  match f with
  | FMin => Ok (map (fun kv => (fst kv, hp_lower (snd kv))) (bs_fid s))
  | FMax => Ok (map (fun kv => (fst kv, hp_upper (snd kv))) (bs_fid s))
  | FTrue => Ok (map (fun kv => (fst kv, hp_sample (snd kv))) (bs_fid s))
  | FNumber v => match bs_fid s with [(name, _)] => Ok [(name, v)] | _ => Err ValueError end
  | FMap d => if forallb (fun kv => has_key (fst kv) d) (bs_fid s) then Ok d else Err ValueError
  | FOther => Err ValueError
  end.
(** initial_design.py:97-100 *)
Definition default_config (s : bospace) : dict :=
  map (fun kv => (fst kv, match hp_default (snd kv) with Some v => v | None => hp_sample (snd kv) end)) (bs_all s).
(** initial_design.py:103-111 *)
Definition design_size (s : bospace) (n : size_arg) : res (option nat) :=
  match n with
  | NDim => Ok (Some (bs_ndims s))
  | NNone => Ok None
  | NInt z => if Z.ltb 0 z then Ok (Some (Z.to_nat z)) else Err ValueError
  end.

Section Design.
  (** [encoder.decode] of a row; [draw n]: the [n] rows that the sampler gives *)
  Variables (decode : row -> dict) (draw : nat -> list row).

  (** initial_design.py:16-129 (make_initial_design) *)
  Definition make_initial_design (s : bospace) (n : size_arg) (default_first : bool) (f : fidelity_arg) : res (list dict) :=
    bind (design_fids s f) (fun fids =>
    let first := if default_first then [merge_dict (default_config s) fids] else [] in
    bind (design_size s n) (fun size =>
    match size with
    | None => Ok first
    | Some k => Ok (first ++ map (fun r => merge_dict (decode r) fids) (firstn k (unique_rows (draw (k * 2)))))
    end)).
End Design.

(** ** The data for the gaussian process *)
(** gp.py:44-51 (GPEncodedData) *)
Record gpdata : Type := mkData { gp_x : list row; gp_y : list fl; gp_cost : list fl; gp_pending : option (list row) }.

Fixpoint insert_fl (x : fl) (l : list fl) : list fl :=
  match l with [] => [x] | y :: l' => if fl_ltb y x then y :: insert_fl x l' else x :: l end.
(** torch.nanmedian (gp.py:263): the lower of the two middle values of those that are not NaN *)
Definition nanmedian (l : list fl) : fl :=
  let s := fold_right insert_fl [] (filter (fun x => negb (fl_isnan x)) l) in
  nth ((length s - 1) / 2) s FNaN.
(** The largest finite double: (2^53 - 1) * 2^971 *)
Definition fl_max : Z := ((Z.pow 2 53 - 1) * Z.pow 2 2045)%Z.
Global Arguments fl_max : simpl never.
(** torch.nan_to_num(..., nan=fill) (gp.py:264) *)
Definition nan_to_num (fill x : fl) : fl :=
  match x with FNaN => fill | FPInf => FZ fl_max | FNInf => FZ (- fl_max) | FZ z => FZ z end.
(** gp.py:246-250 *)
Definition or_nan (x : option fl) : fl := match x with Some v => v | None => FNaN end.

Definition is_finite (x : fl) : bool := match x with FZ _ => true | _ => false end.

Section Gp.
  (** [encoder.encode] of one configuration *)
  Variable encode : dict -> row.

  (** gp.py:239-250: the configurations with their losses and costs; those that wait for a report *)
  Fixpoint split_trials (ts : list trial) : list (dict * fl * fl) * list dict :=
    match ts with
    | [] => ([], [])
    | t :: ts' =>
        let (tr, pe) := split_trials ts' in
        match t_report t with
        | None => (tr, t_config t :: pe)
        | Some r => ((t_config t, or_nan (r_loss r), or_nan (r_cost r)) :: tr, pe)
        end
    end.

  (** gp.py:221-273 (encode_trials_for_gp) *)
  Definition encode_trials (ts : list trial) : gpdata :=
    let (tr, pe) := split_trials ts in
    let y := map (fun p => snd (fst p)) tr in
    mkData (map (fun p => encode (fst (fst p))) tr)
      (map (nan_to_num (nanmedian y)) y)
      (map snd tr)
      (match pe with [] => None | _ => Some (map encode pe) end).
End Gp.

(** gp.py:69-128 (make_default_single_obj_gp): which data it takes *)
Definition make_gp (y : list fl) : res unit :=
  match y with [] => Err ValueError | _ => if forallb is_finite y then Ok tt else Err RuntimeError end.

(** ** The optimization of the acquisition function *)
(** How botorch is called: optimize_acqf with the number of restarts, or optimize_acqf_mixed with that
    and the columns to fix *)
Inductive plan : Type := Plain (restarts : nat) | Mixed (restarts : nat) (fixed : list (list (nat * nat))).

(** gp.py:172-176 *)
Definition n_combos (cats : list (nat * nat)) : nat := fold_left (fun x c => x * snd c) cats 1.
(** gp.py:189-206.  [cats]: the columns with their numbers of choices *)
Definition fixed_cats (cats : list (nat * nat)) : list (list (nat * nat)) :=
  match cats with
  | [(col, n)] => map (fun i => [(col, i)]) (seq 0 n)
  | _ => map (fun combo => combine (map fst cats) combo) (product (map (fun c => seq 0 (snd c)) cats))
  end.
(** gp.py:131-218 (optimize_acq); the bounds and the number of raw samples are left out *)
Definition optimize_acq (cats : list (nat * nat)) (num_restarts maximum : nat) : res plan :=
  match cats with
  | [] => Ok (Plain num_restarts)
  | _ =>
      if Nat.ltb maximum (n_combos cats) then Err ValueError
      else
        match n_combos cats with
        | 0 => Err ZeroDivisionError
        | S _ => Ok (Mixed (Nat.min (num_restarts / n_combos cats) 2) (fixed_cats cats))
        end
  end.

(** ** Costs *)
(** cost_cooling.py:46: [0 <= used / maximum <= 1] *)
Definition in_unit (used maximum : fl) : bool :=
  match used, maximum with
  | FZ u, FZ m => if Z.ltb 0 m then Z.leb 0 u && Z.leb u m else Z.leb m u && Z.leb u 0
  | FZ _, FPInf | FZ _, FNInf => true
  | _, _ => false
  end.
(** gp.py:360-403 with [costs] and the two numbers of the percentage (optimizer.py:182).  Log() of
    botorch makes NaN or an infinity of a cost that is not positive. *)
Definition cost_part (costs : list fl) (log_scale : bool) (used maximum : fl) : res unit :=
  if existsb fl_isnan costs then Err ValueError
  else
    bind (make_gp costs) (fun _ =>
    if log_scale && negb (forallb (fl_ltb (FZ 0)) costs) then Err RuntimeError
    else if in_unit used maximum then Ok tt else Err AssertionError).
(** optimizer.py:173-182: the percentage as its two numbers *)
Definition cost_percent (use_cost : bool) (b : option budget) : res (option (fl * fl)) :=
  if use_cost then
    match b with
    | None => Err ValueError
    | Some b =>
        match b_max_cost b with
        | None => Err ValueError
        | Some m => if fl_eqb m (FZ 0) then Err ZeroDivisionError else Ok (Some (b_used_cost b, m))
        end
    end
  else Ok None.

(** ** Asking *)
(** The fields of the optimizer (optimizer.py:121-139); [bo_cats]: the columns of the encoder with
    categories *)
Record bo : Type := mkBO {
  bo_space : bospace; bo_cats : list (nat * nat); bo_use_cost : bool; bo_log : bool;
  bo_default_first : bool; bo_size : option Z }.

Section Ask.
  Variables (decode : row -> dict) (encode : dict -> row).
  (** the best point that botorch finds *)
  Variable candidate : gpdata -> plan -> row.

  (** optimizer.py:151-163: the design that was made before, or a new one from the rows drawn now *)
  Definition get_design (o : bo) (made : option (list dict)) (draw : nat -> list row) : res (list dict) :=
    match made with
    | Some d => Ok d
    | None => make_initial_design decode draw (bo_space o)
                (match bo_size o with None => NDim | Some z => NInt z end) (bo_default_first o) FMax
    end.
  (** optimizer.py:141-218 (ask), with [made]: self.init_design before.  The weight of the prior
      (184-193, modelled in Pb_model.v) changes the acquisition function only.  The result has
      self.init_design afterwards. *)
  Definition ask (o : bo) (made : option (list dict)) (draw : nat -> list row) (ts : list trial) (b : option budget)
    : res (list dict * sampled dict) :=
    let id := py_str_nat (length ts + 1) in
    bind (get_design o made draw) (fun design =>
    match nth_error design (length ts) with
    | Some c => Ok (design, mkSampled c id None)
    | None =>
        let data := encode_trials encode ts in
        bind (cost_percent (bo_use_cost o) b) (fun p =>
        bind (make_gp (gp_y data)) (fun _ =>
        bind (match p with Some (u, m) => cost_part (gp_cost data) (bo_log o) u m | None => Ok tt end) (fun _ =>
        bind (optimize_acq (bo_cats o) 20 30) (fun pl =>
        Ok (design, mkSampled (decode (candidate data pl)) id None)))))
    end).
End Ask.

(** A run: [made k]: the design that process [k] has made; every step is one process asking for the next
    configuration, with the rows it would draw, the stored trials, and the budget *)
Record qstep : Type := mkQ { q_proc : nat; q_draw : nat -> list row; q_trials : list trial; q_budget : option budget }.
Section Run.
  Variables (decode : row -> dict) (encode : dict -> row) (candidate : gpdata -> plan -> row).
  Definition remember (made : nat -> option (list dict)) (k : nat) (d : list dict) : nat -> option (list dict) :=
    fun j => if Nat.eqb j k then Some d else made j.
  (** The answers; each process keeps its design in memory (optimizer.py:139, 152-153) *)
  Fixpoint answers (o : bo) (made : nat -> option (list dict)) (qs : list qstep) : list (res (sampled dict)) :=
    match qs with
    | [] => []
    | q :: qs' =>
        match ask decode encode candidate o (made (q_proc q)) (q_draw q) (q_trials q) (q_budget q) with
        | Ok (d, c) => Ok c :: answers o (remember made (q_proc q) d) qs'
        | Err e => Err e ::
            answers o (match get_design decode o (made (q_proc q)) (q_draw q) with Ok d => remember made (q_proc q) d | Err _ => made end) qs'
        end
    end.
End Run.

(** ** base_optimizer.py *)
(** The results that get_loss and get_cost take: the word "error", a dictionary, a number, a report *)
Inductive resarg : Type := RError | RDict (d : dict) | RFloat (v : fl) | RReport (r : report).
(** The fields that they use (base_optimizer.py:104-107) *)
Record onerror : Type := mkOnErr { oe_loss : option fl; oe_cost : option fl; oe_ignore : bool }.
(** A loss or cost, or the word "error" *)
Definition lossval := option fl.
Section Values.
  (** Python's [float(v)] *)
  Variable pyfloat : pyval -> res fl.
  (** base_optimizer.py:39, 67: [float(result[k])] *)
  Definition float_of (d : dict) (k : string) : res fl :=
    match lookup k d with Some v => pyfloat v | None => Err KeyError end.
  (** base_optimizer.py:23-36, 51-64 *)
  Definition on_error (ignore : bool) (v : option fl) : res lossval :=
    if ignore then Ok None else match v with Some x => Ok (Some x) | None => Err ValueError end.
  (** base_optimizer.py:127-142 (get_loss) with 17-42 (_get_loss) *)
  Definition get_loss (o : onerror) (x : resarg) : res lossval :=
    match x with
    | RReport r => Ok (r_loss r)
    | RError => on_error (oe_ignore o) (oe_loss o)
    | RDict d => bind (float_of d "loss") (fun v => Ok (Some v))
    | RFloat v => Ok (Some v)
    end.
  (** base_optimizer.py:144-158 (get_cost) with 45-69 (_get_cost) *)
  Definition get_cost (o : onerror) (x : resarg) : res lossval :=
    match x with
    | RReport r => Ok (r_loss r)
    | RError => on_error (oe_ignore o) (oe_cost o)
    | RDict d => bind (float_of d "cost") (fun v => Ok (Some v))
    | RFloat v => Ok (Some v)
    end.
End Values.
