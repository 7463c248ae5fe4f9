(** Vocabulary for when a worker stops. *)
From Verif Require Import Py Trial_model Eval_model Init_model Runtime_model Runtime_spec.

(** The order of floats; NaN is related to nothing. *)
Inductive fl_le : fl -> fl -> Prop :=
| le_fin : forall a b, (a <= b)%Z -> fl_le (FZ a) (FZ b)
| le_ninf : forall x, x <> FNaN -> fl_le FNInf x
| le_pinf : forall x, x <> FNaN -> fl_le x FPInf.

Definition fl_lt (a b : fl) : Prop := fl_le a b /\ ~ fl_le b a.

(** There is a limit and the value has come up to it. *)
Definition at_limit_Z (lim : option Z) (v : Z) : Prop := exists n, lim = Some n /\ (n <= v)%Z.
Definition at_limit (lim : option fl) (v : fl) : Prop := exists n, lim = Some n /\ fl_le n v.

(** Trials that count as evaluations: those with a report, and if wanted those that some
    worker is busy with. *)
Definition is_evaluation (in_progress : bool) (t : trial) : Prop :=
  t_report t <> None \/
  in_progress = true /\ (t_state t = EVALUATING \/ t_state t = SUBMITTED).
(** [n] of the trials count *)
Inductive evaluations (in_progress : bool) : list trial -> Z -> Prop :=
| ev_nil : evaluations in_progress [] 0
| ev_yes : forall t ts n, is_evaluation in_progress t -> evaluations in_progress ts n ->
    evaluations in_progress (t :: ts) (n + 1)
| ev_no : forall t ts n, ~ is_evaluation in_progress t -> evaluations in_progress ts n ->
    evaluations in_progress (t :: ts) n.

(** Sum of the costs (durations) of the reported trials that have one. *)
Fixpoint total (f : report -> option fl) (ts : list trial) : fl :=
  match ts with
  | [] => FZ 0
  | t :: ts' => match t_report t with
                | Some r => match f r with Some c => fl_add c (total f ts') | None => total f ts' end
                | None => total f ts'
                end
  end.

Section Conditions.
Variable st : worker_settings.
Variable err : option string.          (* last error of this worker's own evaluations *)
Variable count : Z.                    (* its evaluations, their cost and duration *)
Variable cost time elapsed : fl.
Variable errs : list errent.           (* the shared errors *)
Variable ts : list trial.              (* all stored trials *)

Definition own_error : Prop := err <> None /\ on_error st <> IGNORE.
Definition own_limit : Prop :=
  at_limit_Z (max_evaluations_for_worker st) count \/
  at_limit (max_cost_for_worker st) cost \/
  at_limit (max_wallclock_time_for_worker st) elapsed \/
  at_limit (max_evaluation_time_for_worker st) time.
Definition shared_error : Prop :=
  (on_error st = RAISE_ANY_ERROR \/ on_error st = STOP_ANY_ERROR) /\ errs <> [].
Definition total_limit : Prop :=
  (exists n, evaluations (include_in_progress st) ts n /\ at_limit_Z (max_evaluations_total st) n) \/
  at_limit (max_cost_total st) (total r_cost ts) \/
  at_limit (max_evaluation_time_total st) (total r_evaluation_duration ts).
End Conditions.

(** The last trial a report was stored for. *)
Section Last.
Context {R : Type}.
Variable pyfloat : pyval -> res fl.
Variable tid wname : nat -> string.
Variable conf : nat -> worker_settings.
Variable ask : R -> list trial -> res (dict * R).

Definition see_reported (s : sys R) (e : event R) (s' : sys R) : list nat :=
  match at_pc s e with
  | Some (k, PReport i _) =>
      match w_pc (s_work s' k) with PAccount _ _ => [i] | _ => [] end
  | _ => []
  end.
(** trials in the order in which their reports were stored *)
Definition reported_trials (s : sys R) (es : list (event R)) : list nat :=
  observe pyfloat tid wname conf ask see_reported s es.
End Last.

(** all stored trials but the [i]-th *)
Definition all_but {R} (s : sys R) (i : nat) : list trial :=
  map c_trial (firstn i (cells s)) ++ map c_trial (skipn (S i) (cells s)).

(** What the user's function does can be read: it raises, or returns something that
    _eval.py:parse_user_result (see Eval_props for what that is) accepts. *)
Definition readable (pyfloat : pyval -> res fl) (d : default_report_values) (o : fn_outcome) : Prop :=
  match o with
  | FnRaises _ => True
  | FnReturns v => exists p,
      parse_user_result pyfloat v (cost_if_not_provided d) (learning_curve_if_not_provided d) = Ok p
  end.

(** [n] steps of worker [k], the [j]-th one with input [xi j] *)
Definition alone {R} (k : nat) (xi : nat -> input R) (n : nat) : list (event R) :=
  map (fun j => Step k (xi j)) (seq 0 n).
