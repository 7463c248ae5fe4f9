(** Specification of how a user's result is understood. *)
From Verif Require Import Py Trial_model Eval_model.

Section Spec.
Variable pyfloat : pyval -> res fl.

(** The entry in which the learning curve is given, if any: at top level, else inside
    info_dict. *)
Definition curve_given (d : dict) : option pyval :=
  match lookup "learning_curve" d, lookup "info_dict" d with
  | Some v, _ => Some v
  | None, Some (VDict i) => lookup "learning_curve" i
  | None, _ => None
  end.

(** Python iteration over a value. *)
Inductive elements : pyval -> list pyval -> Prop :=
| el_list l : elements (VList l) l
| el_tuple l : elements (VTuple l) l
| el_str_nil : elements (VStr "") []
| el_str_cons c s l : elements (VStr s) l ->
    elements (VStr (String c s)) (VStr (String c "") :: l)
| el_dict d : elements (VDict d) (map (fun kv => VStr (fst kv)) d).

(** The curve read from a given entry [v], when the loss is [loss]. *)
Inductive curve_of (loss : fl) : pyval -> option (list fl) -> Prop :=
| cv_none : curve_of loss VNone None
| cv_loss : curve_of loss (VStr "loss") (Some [loss])
| cv_list v vs fs : v <> VStr "loss" -> elements v vs ->
    Forall2 (fun x f => pyfloat x = Ok f) vs fs -> curve_of loss v (Some fs).

Definition default_curve (dl : lc_default) (loss : fl) : option (list fl) :=
  match dl with LCNone => None | LCLoss => Some [loss] | LCList l => Some l end.

(** The result dictionary [d] reads as loss [l], cost [c], learning curve [x] and
    remaining entries [e]. *)
Record dict_result (d : dict) (dc : option fl) (dl : lc_default)
  (l : fl) (c : option fl) (x : option (list fl)) (e : dict) : Prop := {
  dr_loss : exists v, lookup "loss" d = Some v /\ pyfloat v = Ok l;
  dr_cost : match lookup "cost" d with
            | None => c = dc
            | Some VNone => c = None
            | Some v => exists f, pyfloat v = Ok f /\ c = Some f
            end;
  dr_info : lookup "learning_curve" d = None ->
            forall v, lookup "info_dict" d = Some v -> exists i, v = VDict i;
  dr_curve : match curve_given d with
             | None => x = default_curve dl l
             | Some v => curve_of l v x
             end;
  dr_consumed : forall k, k = "loss" \/ k = "cost" \/ k = "learning_curve" -> lookup k e = None;
  dr_kept : forall k, k <> "loss" -> k <> "cost" -> k <> "learning_curve" ->
            k <> "info_dict" -> lookup k e = lookup k d;
  dr_info_kept :
    match lookup "info_dict" d, lookup "learning_curve" d with
    | Some (VDict i), None =>
        exists i', lookup "info_dict" e = Some (VDict i') /\
          forall k, lookup k i' = if String.eqb k "learning_curve" then None else lookup k i
    | v, _ => lookup "info_dict" e = v
    end }.

(** A result that is not a dictionary reads as its own loss. *)
Record plain_result (v : pyval) (dc : option fl) (dl : lc_default)
  (l : fl) (c : option fl) (x : option (list fl)) (e : dict) : Prop := {
  pr_loss : pyfloat v = Ok l;
  pr_cost : c = dc;
  pr_curve : x = default_curve dl l;
  pr_extra : e = [] }.

End Spec.
