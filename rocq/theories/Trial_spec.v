(** Specification for reports and trials, independent of the comparison code. *)
From Verif Require Import Py Trial_model.

(** The number denoted by a Python numeric value. *)
Inductive number : pyval -> fl -> Prop :=
| number_true : number (VBool true) (fl_of_Z 1)
| number_false : number (VBool false) (fl_of_Z 0)
| number_int z : number (VInt z) (fl_of_Z z)
| number_float f : number (VFloat f) f.

(** Two values denote the same thing: same number (NaN is not a number here), same
    string, same elements in the same order, same keys with the same values. *)
Inductive veq : pyval -> pyval -> Prop :=
| veq_none : veq VNone VNone
| veq_num v w x : number v x -> number w x -> x <> FNaN -> veq v w
| veq_str s : veq (VStr s) (VStr s)
| veq_list l m : Forall2 veq l m -> veq (VList l) (VList m)
| veq_tuple l m : Forall2 veq l m -> veq (VTuple l) (VTuple m)
| veq_dict d e :
    (forall k x, In (k, x) d -> exists y, In (k, y) e /\ veq x y) ->
    (forall k y, In (k, y) e -> exists x, In (k, x) d) ->
    veq (VDict d) (VDict e)
| veq_obj n : veq (VObj n) (VObj n).

(** Same float, but NaN never agrees. *)
Definition feq (x y : fl) : Prop := x = y /\ x <> FNaN.

Inductive opt_rel {A} (R : A -> A -> Prop) : option A -> option A -> Prop :=
| opt_rel_none : opt_rel R None None
| opt_rel_some x y : R x y -> opt_rel R (Some x) (Some y).

(** The intended meaning of [a == b] on reports: the fields agree; loss and cost also
    agree when both are NaN; of the error only the text counts (no error reads as
    the text "None"). *)
Record same_report (a b : report) : Prop := {
  sr_id : r_trial_id a = r_trial_id b;
  sr_loss : r_loss a = r_loss b;
  sr_cost : r_cost a = r_cost b;
  sr_lc : opt_rel (Forall2 feq) (r_learning_curve a) (r_learning_curve b);
  sr_extra : veq (VDict (r_extra a)) (VDict (r_extra b));
  sr_err : r_err a = r_err b \/ (r_err a = None /\ r_err b = Some "None")
           \/ (r_err a = Some "None" /\ r_err b = None);
  sr_tb : r_tb a = r_tb b;
  sr_as : r_reported_as a = r_reported_as b;
  sr_dur : opt_rel feq (r_evaluation_duration a) (r_evaluation_duration b) }.

(** Keys of the extra dictionary (and of the dictionaries in it) are distinct. *)
Definition wf_report (r : report) : Prop := wf_val (VDict (r_extra r)).

(** No NaN outside loss and cost. *)
Definition nan_free_report (r : report) : Prop :=
  nan_free (VDict (r_extra r)) /\
  (forall l x, r_learning_curve r = Some l -> In x l -> x <> FNaN) /\
  r_evaluation_duration r <> Some FNaN.

(** Operations on a trial after it has been sampled. *)
Inductive top : Type :=
| TSubmit (time : fl)
| TStart (time : fl) (worker : string)
| TComplete (as_ : reported) (time_end : fl) (loss cost : option fl)
    (lc : option (list fl)) (err tb : option string) (extra : option dict) (dur : option fl)
| TAttach (r : report)
| TCorrupt
| TReset.

Definition tapply (t : trial) (o : top) : trial :=
  match o with
  | TSubmit time => set_submitted t time
  | TStart time w => set_evaluating t time w
  | TComplete a te l c lc e tb x d => fst (set_complete t a te l c lc e tb x d)
  | TAttach r => attach_report t r
  | TCorrupt => set_corrupted t
  | TReset => reset t
  end.

Definition trun (t : trial) (os : list top) : trial := fold_left tapply os t.

Definition is_attach (o : top) : bool := match o with TAttach _ => true | _ => false end.

(** The last report attached in a history. *)
Definition last_attached (os : list top) : option report :=
  fold_left (fun acc o => match o with TAttach r => Some r | _ => acc end) os None.
