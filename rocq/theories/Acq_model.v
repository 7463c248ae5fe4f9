(** Acquisition functions: weights put on them, costs that cool down, decaying priors, upper confidence bounds
    and expected improvement: neps/optimizers/bayesian_optimization/acquisition_functions/ (all files but
    pibo.py, which is in Prior_model), and how gp.py:347-403 nests weights.

    Numbers are rationals; [None] for a value is NaN or an infinity.  Logarithms, powers and roots are
    arguments.  Not modelled: gradients, devices, the values of the expected improvement (ei.py:75-114). *)
From Coq Require Import QArith List Bool.
From Verif Require Export Base Enc_model.
Import ListNotations.
Local Open Scope nat_scope.
Local Open Scope list_scope.
Local Notation length := List.length.

(** ** Weights *)
Section Weights.
  Context {P V : Type}.
  (** Acquisition functions of botorch: those that reduce samples, with the values of each sample at each point
      and the two reductions, others with one value for a set of points, and weighted ones
      (weighted_acquisition.py:90-153); each with its pending points ([[]]: None) *)
  Inductive acqf : Type :=
  | MC (values : list P -> list (list V)) (q_reduction sample_reduction : list V -> V) (pending : list P)
  | Other (value : list P -> V) (pending : list P)
  | Weighted (w : V -> P -> V) (inner : acqf) (pending : list P).
  (** acq.X_pending (weighted_acquisition.py:117) *)
  Definition pending_of (a : acqf) : list P := match a with MC _ _ _ p => p | Other _ p => p | Weighted _ _ p => p end.
  (** acq.set_X_pending (weighted_acquisition.py:118-122) *)
  Definition set_pending (a : acqf) (p : list P) : acqf :=
    match a with MC f q s _ => MC f q s p | Other f _ => Other f p | Weighted w i _ => Weighted w i p end.
  (** weighted_acquisition.py:96-126: the pending points move from the function to the weighted one *)
  Definition weigh (w : V -> P -> V) (a : acqf) : acqf := Weighted w (set_pending a []) (pending_of a).
  (** apply_weight on values and points, with the broadcasting of their last dimension
      (weighted_acquisition.py:145, 152): as many values as points, or one value for all *)
  Definition applied (w : V -> P -> V) (vs : list V) (ps : list P) : res (list V) :=
    match vs with
    | [v] => Ok (map (w v) ps)
    | _ => if Nat.eqb (length vs) (length ps) then Ok (map (fun vp => w (fst vp) (snd vp)) (combine vs ps)) else Err RuntimeError
    end.
  (** weighted_acquisition.py:129-153 on one set of points.  The decorators join the pending points to them and
      check that one value comes out; squeeze(-1) gives one value only if there is one in the dimension *)
  Fixpoint forward (a : acqf) (ps : list P) : res V :=
    match a with
    | MC f q s pend => Ok (s (map q (f (ps ++ pend))))
    | Other f pend => Ok (f (ps ++ pend))
    | Weighted w inner pend =>
        let ps := ps ++ pend in
        match inner with
        | MC f q s pend' => bind (mapM (fun vs => applied w vs ps) (f (ps ++ pend'))) (fun vss => Ok (s (map q vss)))
        | _ => bind (forward inner ps) (fun v => bind (applied w [v] ps) (fun vs =>
               match vs with [v] => Ok v | _ => Err AssertionError end))
        end
    end.
  (** gp.py:347-358, 360-403: the weight of the prior first, if any, then that of the costs, if any *)
  Definition acquired (prior cost : option (V -> P -> V)) (a : acqf) : acqf :=
    let a := match prior with Some w => weigh w a | None => a end in
    match cost with Some w => weigh w a | None => a end.
End Weights.
Arguments acqf : clear implicits.

Local Open Scope Q_scope.
(** ** Costs *)
(** a < b for tensors (cost_cooling.py:37) *)
Definition qltb (a b : Q) : bool := negb (Qle_bool b a).
(** cost_cooling.py:18-37 at one point: [cost] is what the model of the costs predicts *)
Definition cooled (log : Q -> Q) (power : Q -> Q -> Q) (is_log : bool) (alpha acq cost : Q) : option Q :=
  if qltb 0 cost then
    Some (if is_log then acq - alpha * log cost
          else if qltb 0 acq then acq / power cost alpha else acq * power cost alpha)
  else None.
(** cost_cooling.py:40-54 *)
Definition cost_cooled (log : Q -> Q) (power : Q -> Q -> Q) (is_log : bool) (used acq cost : Q) : res (option Q) :=
  if Qle_bool 0 used && Qle_bool used 1 then Ok (cooled log power is_log (1 - used) acq cost) else Err AssertionError.

(** ** Decaying priors *)
(** the number of observations: a number of python or one of numpy, whose division by zero gives infinity
    (prior_weighted.py:28, 57-68) *)
Inductive decay : Type := DPy (t : Q) | DNp (t : Q).
(** prior_weighted.py:57-68; [given]: the argument decay_t; the observed configurations with, if they have one,
    the value and the upper bound of their fidelity *)
Definition set_decay (given : option Q) (train : list (option (Q * Q))) : res decay :=
  match given with
  | Some t => Ok (DPy t)
  | None =>
      match train with
      | [] => Err IndexError
      | None :: _ => Ok (DPy (inject_Z (Z.of_nat (List.length train))))
      | Some _ :: _ =>
          bind (mapM (fun x => match x with Some (v, up) => Ok (Qle_bool up v) | None => Err AttributeError end) train) (fun bs =>
          Ok (DNp (inject_Z (Z.of_nat (List.length (filter (fun b => b) bs))))))
      end
  end.
(** pibo_beta / decay_t (prior_weighted.py:49, 53); [Ok None]: infinity *)
Definition exponent (beta : Q) (d : decay) : res (option Q) :=
  match d with
  | DPy t => if Qeq_bool t 0 then Err ZeroDivisionError else Ok (Some (beta / t))
  | DNp t => if Qeq_bool t 0 then Ok None else Ok (Some (beta / t))
  end.
(** 1e-12 (prior_weighted.py:48, 53) *)
Definition tiny : Q := 1 # 1000000000000.
(** np.power with an exponent that may be infinite (prior_weighted.py:52) *)
Definition np_power (power : Q -> Q -> Q) (b : Q) (e : option Q) : option Q :=
  match e with Some e => Some (power b e) | None => if qltb b 1 then Some 0 else if qltb 1 b then None else Some 1 end.
(** min(acquisition) (prior_weighted.py:38) *)
Fixpoint qmin (a : Q) (l : list Q) : Q := match l with [] => a | b :: l => qmin (if qltb b a then b else a) l end.
(** prior_weighted.py:40-54: one candidate; [shift]: min_acq_val *)
Definition weighted_one (log : Q -> Q) (power : Q -> Q -> Q) (is_log : bool) (beta : Q) (d : decay) (shift acq prior : Q) : res (option Q) :=
  if Qeq_bool prior 1 then Ok (Some acq)
  else
    bind (exponent beta d) (fun e =>
    Ok (if is_log then match e with Some e => Some (log (acq + shift + tiny) + e * prior) | None => None end
        else match np_power power (prior + tiny) e with Some w => Some (acq * w) | None => None end)).
(** prior_weighted.py:30-55: the candidates' values and priors *)
Definition prior_weighted (log : Q -> Q) (power : Q -> Q -> Q) (is_log : bool) (beta : Q) (d : decay) (xs : list (Q * Q)) : res (list (option Q)) :=
  match xs with
  | [] => if is_log then Err ValueError else Ok []
  | x :: xs' =>
      let m := qmin (fst x) (map fst xs') in
      let shift := if qltb m 0 then - m else 0 in
      mapM (fun x => weighted_one log power is_log beta d shift (fst x) (snd x)) xs
  end.

(** ** Upper confidence bound *)
(** ucb.py:17-40: is there a model; beta *)
Record ucb : Type := mkUcb { u_fitted : bool; u_beta : Q; u_maximize : bool }.
(** ucb.py:33-40: the state afterwards, and how the call ends.  [list | np.array] in line 37 is no union of
    types, as np.array is a function *)
Definition ucb_set_state (u : ucb) (beta : option Q) : ucb * res unit :=
  let u := mkUcb true (u_beta u) (u_maximize u) in
  match beta with None => (u, Ok tt) | Some _ => (u, Err TypeError) end.
(** ucb.py:42-57 at one point, with the mean and the standard deviation predicted *)
Definition ucb_eval (sqrt : Q -> Q) (u : ucb) (mu std : Q) : res (option Q) :=
  if u_fitted u then
    let sign := if u_maximize u then 1 else -(1) in
    Ok (if Qle_bool 0 (u_beta u) then Some ((mu + sign * sqrt (u_beta u) * std) * sign) else None)
  else Err AssertionError.

(** ** Expected improvement *)
(** torch.argmin (ei.py:126): the first of the least *)
Fixpoint argmin_from (i best : nat) (b : Q) (l : list Q) : nat :=
  match l with [] => best | a :: l => if qltb a b then argmin_from (S i) i a l else argmin_from (S i) best b l end.
(** ei.py:116-127: the incumbent; [best]: in_fill; the observed values and the means predicted for them *)
Definition ei_incumbent (best : bool) (y mu : list Q) : res Q :=
  if best then match y with [] => Err RuntimeError | a :: l => Ok (qmin a l) end
  else match mu with
       | [] => Err IndexError
       | a :: l => match nth_error y (argmin_from 1 0 a l) with Some v => Ok v | None => Err IndexError end
       end.
