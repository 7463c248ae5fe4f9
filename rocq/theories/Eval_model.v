(** neps/state/_eval.py *)
From Verif Require Import Py Trial_model.

(** neps/state/settings.py:10-32 DefaultReportValues *)
Inductive lc_default : Type := LCNone | LCLoss | LCList (l : list fl).

Record default_report_values : Type := mkDRV {
  loss_value_on_error : option fl;
  cost_value_on_error : option fl;
  cost_if_not_provided : option fl;
  learning_curve_on_error : option (list fl);
  learning_curve_if_not_provided : lc_default }.

Section Eval.
(** Python's [float(v)]; may raise anything. *)
Variable pyfloat : pyval -> res fl.

(** neps/state/_eval.py:21-28 _check_float *)
Definition check_float (v : pyval) : res fl :=
  match pyfloat v with
  | Ok f => Ok f
  | Err TypeError | Err ValueError => Err ValueError
  | Err e => Err e
  end.

(** [[float(v) for v in x]], neps/state/_eval.py:78.  Strings and dicts iterate over
    characters and keys. *)
Fixpoint map_res {A B} (f : A -> res B) (l : list A) : res (list B) :=
  match l with
  | [] => Ok []
  | x :: l' => bind (f x) (fun y => bind (map_res f l') (fun ys => Ok (y :: ys)))
  end.

Fixpoint chars (s : string) : list pyval :=
  match s with
  | EmptyString => []
  | String c s' => VStr (String c EmptyString) :: chars s'
  end.

Definition floats_of (v : pyval) : res (list fl) :=
  match v with
  | VList l | VTuple l => map_res pyfloat l
  | VStr s => map_res pyfloat (chars s)
  | VDict d => map_res pyfloat (map (fun kv => VStr (fst kv)) d)
  | _ => Err TypeError
  end.

Definition lc_val (d : lc_default) : pyval :=
  match d with
  | LCNone => VNone
  | LCLoss => VStr "loss"
  | LCList l => VList (map VFloat l)
  end.

Definition opt_val (o : option fl) : pyval :=
  match o with Some f => VFloat f | None => VNone end.

Definition parsed : Type := (fl * option fl * option (list fl) * dict)%type.

(** neps/state/_eval.py:75-82: the common tail *)
Definition finish (loss cost lc : pyval) (extra : dict) : res parsed :=
  bind (check_float loss) (fun l =>
  bind (match cost with VNone => Ok None | v => bind (check_float v) (fun c => Ok (Some c)) end)
    (fun c =>
  bind (match lc with VNone => Ok None | v => bind (floats_of v) (fun x => Ok (Some x)) end)
    (fun x => Ok (l, c, x, extra)))).

(** neps/state/_eval.py:31-82 parse_user_result.  [x == "loss"] is only true of the
    string (numpy arrays, whose == is elementwise, are not modelled). *)
Definition parse_user_result (v : pyval) (default_cost : option fl) (default_lc : lc_default)
  : res parsed :=
  match v with
  | VDict d =>
      match lookup "loss" d with
      | None => Err KeyError
      | Some loss =>
          let d1 := remove_key "loss" d in
          let cost := match lookup "cost" d1 with Some c => c | None => opt_val default_cost end in
          let d2 := remove_key "cost" d1 in
          let lc_extra : res (pyval * dict) :=
            match lookup "learning_curve" d2 with
            | Some x => Ok (x, remove_key "learning_curve" d2)
            | None =>
                match lookup "info_dict" d2 with
                | None => Ok (lc_val default_lc, d2)
                | Some (VDict i) =>
                    Ok (match lookup "learning_curve" i with
                        | Some x => x | None => lc_val default_lc end,
                        set_key "info_dict" (VDict (remove_key "learning_curve" i)) d2)
                | Some (VList _) => Err TypeError   (* list.pop("...", default) *)
                | Some _ => Err AttributeError      (* no attribute pop *)
                end
            end in
          bind lc_extra (fun '(lc, extra) =>
            let lc' := match lc with
                       | VStr s => if String.eqb s "loss" then VList [loss] else lc
                       | _ => lc end in
            finish loss cost lc' extra)
      end
  | _ =>
      let lc := match default_lc with
                | LCNone => VNone
                | LCLoss => VList [v]
                | LCList l => VList (map VFloat l)
                end in
      finish v (opt_val default_cost) lc []
  end.

(** What the user's function does when called with the trial's configuration. *)
Inductive fn_outcome : Type :=
| FnReturns (v : pyval)
| FnRaises (text : string).      (* an [Exception]; BaseExceptions are not modelled *)

(** neps/state/_eval.py:85-164 _eval_trial / evaluate_trial: the mutated trial and
    the report, or the exception that escapes.  When parsing fails the trial object
    is left as it was. *)
Definition evaluate_trial (t : trial) (o : fn_outcome) (tb : string)
  (drv : default_report_values) (duration time_end : fl) : res (trial * report) :=
  match o with
  | FnRaises e =>
      Ok (set_complete t RCrashed time_end (loss_value_on_error drv) (cost_value_on_error drv)
            (learning_curve_on_error drv) (Some e) (Some tb) None (Some duration))
  | FnReturns v =>
      bind (parse_user_result v (cost_if_not_provided drv) (learning_curve_if_not_provided drv))
        (fun '(loss, cost, lc, extra) =>
           Ok (set_complete t RSuccess time_end (Some loss) cost lc None None
                 (Some extra) (Some duration)))
  end.

End Eval.
