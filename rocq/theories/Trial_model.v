(** neps/state/trial.py *)
From Verif Require Import Py.

(** neps/state/trial.py:27-41 State *)
Inductive tstate : Type :=
| PENDING | SUBMITTED | EVALUATING | SUCCESS | FAILED | CRASHED | CORRUPTED | UNKNOWN.

Definition tstate_eqb (a b : tstate) : bool :=
  match a, b with
  | PENDING, PENDING | SUBMITTED, SUBMITTED | EVALUATING, EVALUATING | SUCCESS, SUCCESS
  | FAILED, FAILED | CRASHED, CRASHED | CORRUPTED, CORRUPTED | UNKNOWN, UNKNOWN => true
  | _, _ => false
  end.

(** neps/state/trial.py:39-41 State.pending *)
Definition tstate_pending (s : tstate) : bool :=
  match s with PENDING | SUBMITTED | EVALUATING => true | _ => false end.

(** neps/state/trial.py:44-60 MetaData *)
Record metadata : Type := mkMeta {
  m_id : string;
  m_location : string;
  m_previous_trial_id : option string;
  m_previous_trial_location : option string;
  m_sampling_worker_id : string;
  m_time_sampled : fl;
  m_evaluating_worker_id : option string;
  m_evaluation_duration : option fl;
  m_time_submitted : option fl;
  m_time_started : option fl;
  m_time_end : option fl }.

(** reported_as: neps/state/trial.py:74 *)
Inductive reported : Type := RSuccess | RFailed | RCrashed.
Definition reported_eqb (a b : reported) : bool :=
  match a, b with
  | RSuccess, RSuccess | RFailed, RFailed | RCrashed, RCrashed => true
  | _, _ => false
  end.

(** neps/state/trial.py:63-79 Report.  An exception object is represented by its
    text [str(err)] (the only thing the code looks at). *)
Record report : Type := mkReport {
  r_trial_id : string;
  r_loss : option fl;
  r_cost : option fl;
  r_learning_curve : option (list fl);
  r_extra : dict;
  r_err : option string;
  r_tb : option string;
  r_reported_as : reported;
  r_evaluation_duration : option fl }.

(** neps/state/trial.py:125-137 Trial *)
Record trial : Type := mkTrial {
  t_config : dict;
  t_meta : metadata;
  t_state : tstate;
  t_report : option report }.

Definition t_id (t : trial) : string := m_id (t_meta t).

(** neps/state/trial.py:139-165 Trial.new *)
Definition trial_new (id : string) (config : dict) (location : string)
  (prev prev_loc : option string) (time_sampled : fl) (worker : string) : trial :=
  mkTrial config
    (mkMeta id location prev prev_loc worker time_sampled None None None None None)
    PENDING None.

(** neps/state/trial.py:198-201 Trial.set_submitted *)
Definition set_submitted (t : trial) (time : fl) : trial :=
  let m := t_meta t in
  mkTrial (t_config t)
    (mkMeta (m_id m) (m_location m) (m_previous_trial_id m) (m_previous_trial_location m)
       (m_sampling_worker_id m) (m_time_sampled m) (m_evaluating_worker_id m)
       (m_evaluation_duration m) (Some time) (m_time_started m) (m_time_end m))
    SUBMITTED (t_report t).

(** neps/state/trial.py:203-207 Trial.set_evaluating *)
Definition set_evaluating (t : trial) (time : fl) (worker : string) : trial :=
  let m := t_meta t in
  mkTrial (t_config t)
    (mkMeta (m_id m) (m_location m) (m_previous_trial_id m) (m_previous_trial_location m)
       (m_sampling_worker_id m) (m_time_sampled m) (Some worker)
       (m_evaluation_duration m) (m_time_submitted m) (Some time) (m_time_end m))
    EVALUATING (t_report t).

(** neps/state/trial.py:223-230 *)
Definition state_of_reported (r : reported) : tstate :=
  match r with RSuccess => SUCCESS | RFailed => FAILED | RCrashed => CRASHED end.

(** neps/state/trial.py:209-252 Trial.set_complete: changes the trial's state and
    metadata, and returns a report; the report is not attached to the trial here
    (neps_state.py:166 does that).  The [float(...)] conversions are identities on
    [fl]. *)
Definition set_complete (t : trial) (as_ : reported) (time_end : fl)
  (loss cost : option fl) (lc : option (list fl)) (err tb : option string)
  (extra : option dict) (duration : option fl) : trial * report :=
  let m := t_meta t in
  (mkTrial (t_config t)
    (mkMeta (m_id m) (m_location m) (m_previous_trial_id m) (m_previous_trial_location m)
       (m_sampling_worker_id m) (m_time_sampled m) (m_evaluating_worker_id m)
       duration (m_time_submitted m) (m_time_started m) (Some time_end))
    (state_of_reported as_) (t_report t),
   mkReport (m_id m) loss cost lc (match extra with Some e => e | None => [] end)
     err tb as_ duration).

(** neps/state/trial.py:254-256 Trial.set_corrupted *)
Definition set_corrupted (t : trial) : trial :=
  mkTrial (t_config t) (t_meta t) CORRUPTED (t_report t).

(** neps/state/trial.py:258-268 Trial.reset *)
Definition reset (t : trial) : trial :=
  let m := t_meta t in
  mkTrial (t_config t)
    (mkMeta (m_id m) (m_location m) (m_previous_trial_id m) (m_previous_trial_location m)
       (m_sampling_worker_id m) (m_time_sampled m) None None None None None)
    PENDING (t_report t).

(** neps/state/neps_state.py:166 [trial.report = report] *)
Definition attach_report (t : trial) (r : report) : trial :=
  mkTrial (t_config t) (t_meta t) (t_state t) (Some r).

(** [str(err)] for an optional exception: [str(None)] is ["None"]. *)
Definition str_of_err (e : option string) : string :=
  match e with Some s => s | None => "None" end.

Definition opt_eqb {A} (eqb : A -> A -> bool) (x y : option A) : bool :=
  match x, y with
  | Some a, Some b => eqb a b
  | None, None => true
  | _, _ => false
  end.

(** neps/state/trial.py:113-118: comparison of loss and cost *)
Definition nan_field_eqb (v w : option fl) : bool :=
  match v with
  | Some a =>
      if fl_isnan a then
        match w with Some b => fl_isnan b | None => false end
      else opt_eqb fl_eqb v w
  | None => opt_eqb fl_eqb v w
  end.

(** neps/state/trial.py:96-122 Report.__eq__, between two separately created
    reports (e.g. one of them read from disk). *)
Definition report_eqb (a b : report) : bool :=
  String.eqb (r_trial_id a) (r_trial_id b) &&
  nan_field_eqb (r_loss a) (r_loss b) &&
  nan_field_eqb (r_cost a) (r_cost b) &&
  opt_eqb (list_eqb fl_eqb) (r_learning_curve a) (r_learning_curve b) &&
  py_eqb (VDict (r_extra a)) (VDict (r_extra b)) &&
  String.eqb (str_of_err (r_err a)) (str_of_err (r_err b)) &&
  opt_eqb String.eqb (r_tb a) (r_tb b) &&
  reported_eqb (r_reported_as a) (r_reported_as b) &&
  opt_eqb fl_eqb (r_evaluation_duration a) (r_evaluation_duration b).

(** What into_config_result / to_deprecate_result_dict hand to optimizers and to the
    status functions. *)
Inductive result_or_error : Type := ResDict (d : dict) | ResError.

Definition opt_float (x : option fl) : pyval :=
  match x with Some f => VFloat f | None => VNone end.

(** [{**a, **b}] *)
Definition merge_dict {A} (a b : list (string * A)) : list (string * A) :=
  fold_left (fun acc kv => set_key (fst kv) (snd kv) acc) b a.

(** neps/state/trial.py:172-196 Trial.into_config_result (the result part) *)
Definition into_config_result (t : trial) : res result_or_error :=
  match t_report t with
  | None => Err NotReportedYetError
  | Some r =>
      match r_reported_as r with
      | RSuccess =>
          Ok (ResDict (merge_dict (r_extra r)
                [("loss", opt_float (r_loss r)); ("cost", opt_float (r_cost r))]))
      | _ => Ok ResError
      end
  end.

(** neps/state/trial.py:81-94 Report.to_deprecate_result_dict.  [info_dict] must
    support [in]; other values of [info_dict] raise TypeError. *)
Definition to_deprecate_result_dict (r : report) : res result_or_error :=
  match r_reported_as r with
  | RSuccess =>
      let d := merge_dict [("loss", opt_float (r_loss r)); ("cost", opt_float (r_cost r))]
                          (r_extra r) in
      let lc := match r_learning_curve r with
                | Some l => VList (map VFloat l) | None => VNone end in
      match lookup "info_dict" d with
      | None => Ok (ResDict (set_key "info_dict" (VDict [("learning_curve", lc)]) d))
      | Some (VDict i) =>
          if has_key "learning_curve" i then Ok (ResDict d)
          else Ok (ResDict (set_key "info_dict" (VDict (set_key "learning_curve" lc i)) d))
      | Some _ => Err TypeError
      end
  | _ => Ok ResError
  end.
