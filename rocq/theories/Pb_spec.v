(** What is expected of PriorBand's weights. *)
From Verif Require Export Pb_model Sh_spec.
Open Scope Q_scope.

(** Non-negative numbers that sum to one. *)
Definition valid (w : weights) : Prop :=
  exists p i r, w = mkW (Num p) (Num i) (Num r) /\ 0 <= p /\ 0 <= i /\ 0 <= r /\ p + i + r == 1.

(** Scores as densities are: not negative. *)
Definition densities {H} (score : H -> H -> H -> Q * Q) : Prop :=
  forall c d i, 0 <= fst (score c d i) /\ 0 <= snd (score c d i).
(** The configuration gets some score from the prior or from the incumbent. *)
Definition scored {H} (score : H -> H -> H -> Q * Q) : Prop :=
  forall c d i, 0 < fst (score c d i) + snd (score c d i).

(** [x] has the smallest performance of all rows that have one. *)
Definition best_row {H} (rows : list (row H)) (x : row H) : Prop :=
  In x rows /\ exists v, r_perf x = PNum v /\ v <> FNaN /\
  forall y w, In y rows -> r_perf y = PNum w -> fl_ltb w v = false.

(** The cost of a bracket: every configuration costs the budget of the rung at which it
    stops; [size r - size (r + 1)] of them stop at rung [r], the last ones at [lo + n]. *)
Fixpoint stop_cost (size : nat -> nat) (budget : nat -> Q) (lo n : nat) : Q :=
  match n with
  | O => qnat (size lo) * budget lo
  | S n' => (qnat (size lo) - qnat (size (S lo))) * budget lo + stop_cost size budget (S lo) n'
  end.

(** A uniform random number. *)
Definition unit_interval (u : Q) : Prop := 0 <= u /\ u < 1.

(** [p] is a probability distribution. *)
Definition distribution (l : list Q) : Prop := (forall x, In x l -> 0 <= x) /\ qsum l == 1.

(** What the configurations in the table have cost: each the budget of its rung, unless it
    is pending or has no value. *)
Definition spent {H} (budget : nat -> Q) (rows : list (row H)) : Q :=
  qsum (map (fun x => budget (r_rung x)) (filter (fun x => negb (is_nan (r_perf x))) rows)).

(** How often a new configuration for [rung] is to be drawn at random, [m] being the number
    of rungs above the lowest: 1 : eta^rung against the rest; or from 1 : 1 at rung 0
    linearly to 1 : eta at rung m; or 1 : 1. *)
Definition random_share (t : prior_weight_type) (eta m rung : nat) (r : Q) : Prop :=
  match t with
  | Geometric => r * (1 + inject_Z (Z.of_nat eta ^ Z.of_nat rung)) == 1
  | Linear => (rung <= m)%nat /\
      ((m = 0)%nat /\ r * 2 == 1 \/
       (1 <= m)%nat /\ r * (2 * qnat m + qnat rung * (qnat eta - 1)) == qnat m)
  | FiftyFifty => r * 2 == 1
  | OtherType => False
  end.

(** How many evaluations at [r] have finished. *)
Definition finished_at {H} (ts : list (strial H)) (r : nat) : nat :=
  length (filter (fun t => match st_out t with Pending => false | _ => Nat.eqb (snd (st_id t)) r end) ts).

(** The first configuration counts as often as there are configurations, the last one once. *)
Definition rank_sum {H} (g : H -> Q) (l : list H) : Q :=
  qsum (map (fun i => match nth_error l i with Some c => qnat (length l - i) * g c | None => 0 end)
            (seq 0 (length l))).
