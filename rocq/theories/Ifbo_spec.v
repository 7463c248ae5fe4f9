(** What is expected of ifBO. *)
From Verif Require Export Ifbo_model Space_spec.
From Coq Require Import Permutation.
Open Scope nat_scope.
Local Notation length := List.length.

Section Run.
  Context {T C V : Type} (A : arith T) (enc : C -> V) (dec : V -> C) (o : ifbo T) (design : list C).

  (** A possible answer, for some scores and samples. *)
  Definition asks (ts : list (trial T C)) (r : sampled (C * T)) : Prop :=
    exists acq argmax samplers, ifbo_ask A enc dec o design acq argmax samplers ts = Ok r.

  (** The trials there can be, in any order: workers ask, and store the trial unless its
      identifier exists already; evaluations of pending trials end, with or without a loss. *)
  Inductive ifbo_run : list (trial T C) -> Prop :=
  | run_nil : ifbo_run []
  | run_ask ts r : ifbo_run ts -> asks ts r -> ~ In (sc_id r) (map t_id ts) ->
      ifbo_run (mkTr (sc_id r) (fst (sc_config r)) (snd (sc_config r)) None :: ts)
  | run_report ts id c f loss : ifbo_run (mkTr id c f None :: ts) -> ifbo_run (mkTr id c f (Some loss) :: ts)
  | run_perm ts ts' : ifbo_run ts -> Permutation ts ts' -> ifbo_run ts'.
End Run.

(** No trial is pending: all have a report, and the loss reported is a number. *)
Definition finished {C} (t : trial (option Q) C) : Prop :=
  match t_report t with None | Some (Some None) => False | Some None | Some (Some (Some _)) => True end.

(** The point number [k] of [n] equidistant points from [lo] to [hi]. *)
Definition fid_at (lo hi : Q) (n k : Z) : Q := (lo + inject_Z k / inject_Z (n - 1) * (hi - lo))%Q.
(** The identifier of the step number [k] of the configuration number [c]. *)
Definition curve_id (c k : nat) : string := (py_str_nat c ++ "_" ++ py_str_nat k)%string.

Section New.
  Variables lnf expf : Q -> Q.
  (** An optimiser for a space with a float, or an integer, fidelity [p]. *)
  Definition float_ifbo (s : space (option Q)) (p : fparam (option Q)) (step : option Q) (o : ifbo (option Q)) : Prop :=
    exists name, is_space lnf expf s /\ s_fidelity s = Some name /\ lookup name s = Some (PF p) /\
      ifbo_new (Qar lnf expf) q_floordiv s step = Ok o.
  Definition int_ifbo (s : space (option Q)) (p : iparam (option Q)) (step : Z) (o : ifbo (option Q)) : Prop :=
    exists name, is_space lnf expf s /\ s_fidelity s = Some name /\ lookup name s = Some (PI p) /\
      ifbo_new (Qar lnf expf) q_floordiv s (Some (inject_Z step)) = Ok o.
  (** Float fidelities, or integer fidelities with long steps: indices are read back. *)
  Definition steady_ifbo (s : space (option Q)) (o : ifbo (option Q)) : Prop :=
    (exists p step, float_ifbo s p step o) \/
    (exists p step, int_ifbo s p step o /\ ((ib_bins o - 1) * (ib_bins o - 1) <= ib_bins o * step)%Z).
End New.

(** Scores and samples as they should be: a number for every row, the position is one of the
    list, and there is something to choose from. *)
Definition good_scores {V} (acq : list (row (option Q) V) -> list (option Q)) (argmax : list (option Q) -> nat) : Prop :=
  (forall l, length (acq l) = length l) /\ (forall l, ~ In None (acq l)) /\ (forall l, l <> [] -> argmax l < length l).
Definition good_samplers {V} (samplers : list (list V * (V -> list V))) : Prop :=
  samplers <> [] /\ forall s, In s samplers -> fst s <> [] /\ forall v, snd s v <> [].
(** The losses reported are between zero and one. *)
Definition losses_in_range {C} (ts : list (trial (option Q) C)) : Prop :=
  forall t x, In t ts -> t_report t = Some (Some x) -> exists q, x = Some q /\ (0 <= q)%Q /\ (q <= 1)%Q.
