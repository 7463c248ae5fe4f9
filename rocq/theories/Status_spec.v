(** Vocabulary for the status of a run. *)
From Verif Require Import Py Trial_model Limit_spec Status_model.

Definition has_report (t : trial) : Prop := t_report t <> None.
(** evaluated successfully, with this loss *)
Definition succeeded (t : trial) (l : fl) : Prop :=
  exists r, t_report t = Some r /\ r_reported_as r = RSuccess /\ r_loss r = Some l.
Definition erroneous (t : trial) : Prop :=
  exists r, t_report t = Some r /\ r_reported_as r <> RSuccess.

(** [n] trials of [ts] satisfy [P] *)
Inductive number_of (P : trial -> Prop) : list trial -> nat -> Prop :=
| no_nil : number_of P [] 0
| no_yes : forall t ts n, P t -> number_of P ts n -> number_of P (t :: ts) (S n)
| no_no : forall t ts n, ~ P t -> number_of P ts n -> number_of P (t :: ts) n.

(** Reports as evaluate_trial makes them: a successful one has a loss, which is not
    among the extra entries, and info_dict, if there is one, is a dictionary. *)
Definition plain_report (r : report) : Prop :=
  r_reported_as r = RSuccess ->
  r_loss r <> None /\ lookup "loss" (r_extra r) = None /\ NoDup (map fst (r_extra r)) /\
  forall v, lookup "info_dict" (r_extra r) = Some v -> exists d, v = VDict d.
Definition plain_trials (ts : list trial) : Prop :=
  NoDup (map t_id ts) /\ forall t r, In t ts -> t_report t = Some r -> plain_report r.

(** The stored trials change so that no report disappears. *)
Definition evolves (ts ts' : list trial) : Prop :=
  exists n n', number_of has_report ts n /\ number_of has_report ts' n' /\ n <= n'.
Fixpoint evolving (ts : list trial) (es : list cevent) : Prop :=
  match es with
  | [] => True
  | Evolve ts' :: es' => evolves ts ts' /\ plain_trials ts' /\ evolving ts' es'
  | _ :: es' => evolving ts es'
  end.

(** Every writing directly follows the computation it writes. *)
Fixpoint undisturbed (es : list cevent) : Prop :=
  match es with
  | [] => True
  | Snap k :: es' => match es' with Save k' :: es'' => k = k' /\ undisturbed es'' | _ => False end
  | Save _ :: _ => False
  | Evolve _ :: es' => undisturbed es'
  end.

(** number of evaluated configurations in the file *)
Definition in_file (f : option csv) : nat := match f with Some c => c_evaluated c | None => 0 end.
