(** Vocabulary for the statements about concurrently running workers. *)
From Verif Require Import Py Trial_model Eval_model Init_model Runtime_model.

Section Spec.
Context {R : Type}.
Variable pyfloat : pyval -> res fl.
Variable tid wname : nat -> string.
Variable conf : nat -> worker_settings.
Variable ask : R -> list trial -> res (dict * R).
Notation do_event := (do_event pyfloat tid wname conf ask).
Notation run := (run pyfloat tid wname conf ask).

(** Everything [f] notices while the events happen, in order. *)
Fixpoint observe {A} (f : sys R -> event R -> sys R -> list A) (s : sys R) (es : list (event R)) : list A :=
  match es with
  | [] => []
  | e :: es' => f s e (do_event s e) ++ observe f (do_event s e) es'
  end.

(** The event is one step of worker [k] taken at [p]. *)
Definition at_pc (s : sys R) (e : event R) : option (nat * wpc) :=
  match e with Step k _ => Some (k, w_pc (s_work s k)) | _ => None end.

(** Calls of the user's function: the trials they are for. *)
Definition see_evaluation (s : sys R) (e : event R) (_ : sys R) : list nat :=
  match at_pc s e with Some (_, PEval i) => [i] | _ => [] end.
Definition evaluated (s : sys R) (es : list (event R)) : list nat := observe see_evaluation s es.

(** The same together with the calling worker. *)
Definition see_evaluation_by (s : sys R) (e : event R) (_ : sys R) : list (nat * nat) :=
  match at_pc s e with Some (k, PEval i) => [(k, i)] | _ => [] end.
Definition evaluated_by (s : sys R) (es : list (event R)) : list (nat * nat) :=
  observe see_evaluation_by s es.

(** A pending trial that is fetched for evaluation is still pending when it is read for
    the second time (neps_state.py:211), i.e. no other worker got hold of it between the
    listing of pending trials and this reading. *)
Definition refetch_ok (s : sys R) (e : event R) : Prop :=
  match at_pc s e with
  | Some (_, PRefetch i) =>
      forall c, nth_error (cells s) i = Some c -> t_state (c_trial c) = PENDING
  | _ => True
  end.
Fixpoint no_late_refetch (s : sys R) (es : list (event R)) : Prop :=
  match es with
  | [] => True
  | e :: es' => refetch_ok s e /\ no_late_refetch (do_event s e) es'
  end.

(** Stored trials at the start: distinct versions below the next one; reports only on
    trials with a final status (and never on pending ones). *)
Definition final (t : tstate) : Prop := t = SUCCESS \/ t = FAILED \/ t = CRASHED.
Definition good_cells (cs : list cell) (n : nat) : Prop :=
  forall c, In c cs -> c_ver c < n /\ (t_report (c_trial c) <> None -> final (t_state (c_trial c))).

Definition trial_at (s : sys R) (i : nat) : option trial :=
  option_map c_trial (nth_error (cells s) i).

(** Attempts of worker [k]'s current process to mark a trial as evaluating, latest
    first: accepted or not. *)
Definition see_attempt (k : nat) (acc : list bool) (s : sys R) (e : event R) (s' : sys R) : list bool :=
  match e with
  | Restart k' _ => if Nat.eqb k' k then [] else acc
  | Step k' _ =>
      if Nat.eqb k' k then
        match w_pc (s_work s k) with
        | PClaim _ => (match w_pc (s_work s' k) with PEval _ => true | _ => false end) :: acc
        | _ => acc
        end
      else acc
  | _ => acc
  end.
Fixpoint attempts (k : nat) (acc : list bool) (s : sys R) (es : list (event R)) : list bool :=
  match es with
  | [] => acc
  | e :: es' => attempts k (see_attempt k acc s e (do_event s e)) (do_event s e) es'
  end.
(** Rejections since the last acceptance. *)
Fixpoint rejected_in_a_row (l : list bool) : Z :=
  match l with false :: l' => 1 + rejected_in_a_row l' | _ => 0 end.

(** Reports stored by worker [k], and reports of worker [k] charged to the budget. *)
Definition see_stored (k : nat) (s : sys R) (e : event R) (s' : sys R) : list report :=
  match at_pc s e with
  | Some (k', PReport _ r) =>
      match w_pc (s_work s' k') with
      | PAccount _ _ => if Nat.eqb k' k then [r] else []
      | _ => []
      end
  | _ => []
  end.
Definition stored_reports (k : nat) (s : sys R) (es : list (event R)) := observe (see_stored k) s es.
Definition see_charged (k : nat) (s : sys R) (e : event R) (s' : sys R) : list report :=
  match at_pc s e with
  | Some (k', PAccount _ r) => if Nat.eqb k' k then [r] else []
  | _ => []
  end.
Definition charged_reports (k : nat) (s : sys R) (es : list (event R)) := observe (see_charged k) s es.

(** Costs in the order in which the accounting steps ran. *)
Definition see_cost (s : sys R) (e : event R) (s' : sys R) : list fl :=
  match at_pc s e with
  | Some (_, PAccount _ r) => match r_cost r with Some c => [c] | None => [] end
  | _ => []
  end.
Definition costs (s : sys R) (es : list (event R)) := observe see_cost s es.

(** Error entries in the order in which the workers wrote them. *)
Definition see_error (s : sys R) (e : event R) (s' : sys R) : list errent :=
  match e with
  | Step k x =>
      match w_pc (s_work s k) with
      | PErrDump i r =>
          [mkErr (tid i) (wname k) (in_errtype x)
             (match r_err r with Some m => m | None => "None" end) (r_tb r)]
      | _ => []
      end
  | _ => []
  end.
Definition error_entries (s : sys R) (es : list (event R)) := observe see_error s es.
Definition see_dumped (k : nat) (s : sys R) (e : event R) (s' : sys R) : list report :=
  match at_pc s e with
  | Some (k', PErrDump _ r) => if Nat.eqb k' k then [r] else []
  | _ => []
  end.
Definition dumped_reports (k : nat) (s : sys R) (es : list (event R)) := observe (see_dumped k) s es.

(** Worker [k] is neither killed while sampling nor replaced. *)
Definition undisturbed (k : nat) (es : list (event R)) : Prop :=
  forall e, In e es -> match e with Step _ _ => True | _ => actor e <> k end.

Definition reported_count (s : sys R) : nat :=
  List.length (filter (fun c => match t_report (c_trial c) with Some _ => true | None => false end)
                 (cells s)).

(** The configurations in order of sampling. *)
Definition configs (s : sys R) : list dict := map (fun c => t_config (c_trial c)) (cells s).

End Spec.
