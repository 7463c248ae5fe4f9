(** Properties C24, C25 (evaluation step), C61.
    [pyfloat] is Python's [float()]: any function that leaves floats alone. *)
From Verif Require Import Py Trial_model Eval_model Eval_spec Eval_proofs.

(** C24: anything that is not a dictionary is taken as the loss, with the default cost
    and curve; it is accepted exactly when [float()] accepts it. *)
Theorem parse_plain_result : forall pyfloat, (forall f, pyfloat (VFloat f) = Ok f) ->
  forall v dc dl l c x e, (forall d, v <> VDict d) ->
  (parse_user_result pyfloat v dc dl = Ok (l, c, x, e) <-> plain_result pyfloat v dc dl l c x e).
Proof. intros pyfloat float_id. exact (parse_plain_lemma pyfloat float_id). Qed.
Print Assumptions parse_plain_result.

(** C24: an accepted dictionary is read as specified; nothing is lost or invented. *)
Theorem parse_dict_result_sound : forall pyfloat, (forall f, pyfloat (VFloat f) = Ok f) ->
  forall d dc dl l c x e,
  parse_user_result pyfloat (VDict d) dc dl = Ok (l, c, x, e) ->
  dict_result pyfloat d dc dl l c x e.
Proof. intros pyfloat float_id. exact (parse_dict_ok_lemma pyfloat float_id). Qed.
Print Assumptions parse_dict_result_sound.

(** C24: every dictionary that has a reading is accepted, so everything else is
    rejected with an exception. *)
Theorem parse_dict_result_complete : forall pyfloat, (forall f, pyfloat (VFloat f) = Ok f) ->
  forall d dc dl l c x e, dict_result pyfloat d dc dl l c x e ->
  exists e', parse_user_result pyfloat (VDict d) dc dl = Ok (l, c, x, e').
Proof. intros pyfloat float_id. exact (parse_dict_complete_lemma pyfloat float_id). Qed.
Print Assumptions parse_dict_result_complete.

(** C24: a dictionary without a loss is rejected with KeyError. *)
Theorem parse_dict_without_loss : forall pyfloat d dc dl,
  (forall v, ~ In ("loss", v) d) -> parse_user_result pyfloat (VDict d) dc dl = Err KeyError.
Proof.
  intros pyfloat d dc dl H. unfold parse_user_result.
  destruct (lookup "loss" d) as [v|] eqn:E; [|reflexivity].
  apply Py_proofs.lookup_In in E. exfalso. exact (H v E).
Qed.
Print Assumptions parse_dict_without_loss.

(** A reading of [float()] for the examples. *)
Definition ex_float (v : pyval) : res fl :=
  match v with
  | VFloat f => Ok f
  | VInt z => Ok (fl_of_Z z)
  | VBool b => Ok (fl_of_Z (if b then 1 else 0))
  | VStr _ => Err ValueError
  | _ => Err TypeError
  end.
Definition ex_dict : dict :=
  [("acc", VFloat (FZ 7)); ("loss", VInt 3); ("info_dict", VDict [("learning_curve", VStr "loss"); ("t", VNone)])].
Example ex_dict_parses :
  parse_user_result ex_float (VDict ex_dict) (Some (FZ 1)) LCNone =
  Ok (fl_of_Z 3, Some (FZ 1), Some [fl_of_Z 3],
      [("acc", VFloat (FZ 7)); ("info_dict", VDict [("t", VNone)])]).
Proof. reflexivity. Qed.
Example ex_plain_parses :
  parse_user_result ex_float (VFloat FNaN) None LCLoss = Ok (FNaN, None, Some [FNaN], []).
Proof. reflexivity. Qed.

(** C25, evaluation step: a raising function always gives a crashed trial with the
    configured defaults; a returned value that can be read gives a successful trial
    with exactly the read values; a value that cannot be read raises. *)
Theorem evaluation_outcome : forall pyfloat (t : trial) (o : fn_outcome) tb drv dur te,
  match o with
  | FnRaises e =>
      exists t' r, evaluate_trial pyfloat t o tb drv dur te = Ok (t', r) /\
        t_state t' = CRASHED /\ r_reported_as r = RCrashed /\
        r_loss r = loss_value_on_error drv /\ r_cost r = cost_value_on_error drv /\
        r_learning_curve r = learning_curve_on_error drv /\ r_err r = Some e /\ r_extra r = []
  | FnReturns v =>
      match parse_user_result pyfloat v (cost_if_not_provided drv) (learning_curve_if_not_provided drv) with
      | Ok (l, c, x, e) =>
          exists t' r, evaluate_trial pyfloat t o tb drv dur te = Ok (t', r) /\
            t_state t' = SUCCESS /\ r_reported_as r = RSuccess /\
            r_loss r = Some l /\ r_cost r = c /\ r_learning_curve r = x /\
            r_err r = None /\ r_extra r = e
      | Err er => evaluate_trial pyfloat t o tb drv dur te = Err er
      end
  end.
Proof. exact evaluate_ok_iff_lemma. Qed.
Print Assumptions evaluation_outcome.

(** C25: so not every evaluation ends in a report: a function that returns normally
    with a dictionary without loss, with None, or with a bad info_dict, makes the
    worker raise. *)
Theorem every_evaluation_reported_refuted :
  exists (v1 v2 v3 : pyval), forall t tb drv dur te,
    evaluate_trial ex_float t (FnReturns v1) tb drv dur te = Err KeyError /\
    evaluate_trial ex_float t (FnReturns v2) tb drv dur te = Err ValueError /\
    evaluate_trial ex_float t (FnReturns v3) tb drv dur te = Err AttributeError.
Proof.
  exists (VDict [("score", VInt 1)]), VNone, (VDict [("loss", VInt 1); ("info_dict", VNone)]).
  intros. split; [|split]; reflexivity.
Qed.
Print Assumptions every_evaluation_reported_refuted.

(** C61: what an optimizer is told about a successful evaluation is what was reported:
    loss, cost and every other returned entry. *)
Theorem optimizer_is_told_what_was_reported :
  forall pyfloat, (forall f, pyfloat (VFloat f) = Ok f) ->
  forall t v tb drv dur te t' r, wf_val v ->
  evaluate_trial pyfloat t (FnReturns v) tb drv dur te = Ok (t', r) ->
  exists d, into_config_result (attach_report t' r) = Ok (ResDict d) /\
    lookup "loss" d = Some (opt_float (r_loss r)) /\
    lookup "cost" d = Some (opt_float (r_cost r)) /\
    (forall k, k <> "loss" -> k <> "cost" -> lookup k d = lookup k (r_extra r)).
Proof. intros pyfloat float_id. exact (optimizer_sees_lemma pyfloat float_id). Qed.
Print Assumptions optimizer_is_told_what_was_reported.

(** C61: a function that raised is presented as "error" to optimizers and to the status
    functions. *)
Theorem failure_is_told_as_error : forall pyfloat t x tb drv dur te t' r,
  evaluate_trial pyfloat t (FnRaises x) tb drv dur te = Ok (t', r) ->
  into_config_result (attach_report t' r) = Ok ResError /\
  to_deprecate_result_dict r = Ok ResError.
Proof. intros pyfloat t x tb drv dur te t' r E. injection E as <- <-. split; reflexivity. Qed.
Print Assumptions failure_is_told_as_error.
Example failure_is_told_as_error_example : forall pyfloat t, exists t' r,
  evaluate_trial pyfloat t (FnRaises "ValueError()") "tb" (mkDRV (Some FPInf) None (Some (FZ 1)) None LCLoss) FNaN FNaN = Ok (t', r) /\
  into_config_result (attach_report t' r) = Ok ResError.
Proof. intros. eexists _, _. split; reflexivity. Qed.

(** C61: and the status functions are told the same loss, cost and entries; the
    learning curve is in info_dict unless info_dict brought its own.  They raise
    exactly when info_dict is not a dictionary. *)
Theorem status_is_told_what_was_reported :
  forall pyfloat, (forall f, pyfloat (VFloat f) = Ok f) ->
  forall t v tb drv dur te t' r, wf_val v ->
  evaluate_trial pyfloat t (FnReturns v) tb drv dur te = Ok (t', r) ->
  match to_deprecate_result_dict r with
  | Ok (ResDict d) =>
      lookup "loss" d = Some (opt_float (r_loss r)) /\
      lookup "cost" d = Some (opt_float (r_cost r)) /\
      (forall k, k <> "loss" -> k <> "cost" -> k <> "info_dict" ->
         lookup k d = lookup k (r_extra r)) /\
      (exists i, lookup "info_dict" d = Some (VDict i) /\
         ((forall i0, lookup "info_dict" (r_extra r) = Some (VDict i0) ->
             has_key "learning_curve" i0 = false) ->
          lookup "learning_curve" i =
          Some match r_learning_curve r with Some l => VList (map VFloat l) | None => VNone end))
  | Ok ResError => False
  | Err _ => exists w, lookup "info_dict" (r_extra r) = Some w /\ forall i, w <> VDict i
  end.
Proof. intros pyfloat float_id. exact (status_sees_lemma pyfloat float_id). Qed.
Print Assumptions status_is_told_what_was_reported.

Definition ex_drv : default_report_values := mkDRV (Some FPInf) None (Some (FZ 1)) None LCLoss.
Definition ex_trial : trial := trial_new "3" [] "loc" None None (FZ 0) "w".
Example ex_told : wf_val (VDict ex_dict) /\
  exists t' r, evaluate_trial ex_float ex_trial (FnReturns (VDict ex_dict)) "" ex_drv (FZ 2) (FZ 3)
               = Ok (t', r) /\ is_ok (to_deprecate_result_dict r) = true.
Proof.
  split.
  - vm_compute. repeat (split || constructor); simpl; intuition discriminate.
  - eexists _, _. split; reflexivity.
Qed.

(** C61: a successful trial whose result makes every later status call raise. *)
Theorem status_readable_refuted :
  exists v t' r, wf_val v /\
    evaluate_trial ex_float ex_trial (FnReturns v) "" ex_drv (FZ 2) (FZ 3) = Ok (t', r) /\
    r_reported_as r = RSuccess /\ to_deprecate_result_dict r = Err TypeError.
Proof.
  exists (VDict [("loss", VInt 1); ("learning_curve", VNone); ("info_dict", VNone)]).
  eexists _, _. split; [|split; [reflexivity|split; reflexivity]].
  vm_compute. repeat (split || constructor); simpl; intuition discriminate.
Qed.
Print Assumptions status_readable_refuted.
