(** Vocabulary for the statements about successive halving and its relatives. *)
From Coq Require Export Permutation.
From Verif Require Export Sh_model Ladder_spec.
Open Scope nat_scope.

Section Spec.
Context {H : Type}.
Implicit Types (t u : strial H) (ts : list (strial H)).

(** Everything that can happen: asking (the trials being listed in any order, any new
    hyperparameters being sampled, any bracket being drawn) and storing the answer; a
    report for a pending trial. *)
Inductive history (ask : list (strial H) -> H -> nat -> res (proposal H)) : list (strial H) -> Prop :=
| h_start : history ask []
| h_ask : forall ts ts' fresh draw q, history ask ts -> Permutation ts ts' ->
    ask ts' fresh draw = Ok q -> history ask (stored q :: ts)
| h_report : forall a t b x, history ask (a ++ t :: b) -> st_out t = Pending -> x <> Pending ->
    history ask (a ++ with_outcome t x :: b).

Definition finished t : Prop := st_out t <> Pending.

(** The budget of rung [r] when the fidelity goes from lower to upper and [L] is the
    highest rung: upper divided by eta^(L-r), truncated for integers. *)
Definition rung_budget (f : fidelity) (eta : nat) (L r : nat) (x : Q) : Prop :=
  r <= L /\
  if f_int f
  then exists z, x = inject_Z z /\ (x * inject_Z (Z.of_nat eta ^ Z.of_nat (L - r)) <= f_upper f)%Q /\
         (f_upper f < (x + 1) * inject_Z (Z.of_nat eta ^ Z.of_nat (L - r)))%Q
  else (x * inject_Z (Z.of_nat eta ^ Z.of_nat (L - r)) == f_upper f)%Q.

(** [np.argsort]: some permutation of the positions that sorts the values. *)
Definition sorts (argsort : list fl -> list nat) : Prop :=
  forall l, ~ In FNaN l ->
  Permutation (argsort l) (seq 0 (length l)) /\
  forall i j a b x y, i < j -> nth_error (argsort l) i = Some a -> nth_error (argsort l) j = Some b ->
    nth_error l a = Some x -> nth_error l b = Some y -> fl_ltb y x = false.

(** The value by which a finished evaluation is ranked. *)
Definition ranks (o : options) (x : outcome) (v : fl) : Prop :=
  x = Loss v \/ x = Failed /\ o_ignore_errors o = false /\ o_loss_on_error o = Some v.

(** Configuration [c] waits at rung [r]: it was evaluated there with value [v] and has no
    evaluation, finished or not, at a higher rung or still running. *)
Definition waits (o : options) ts (r c : nat) (v : fl) : Prop :=
  (exists t, In t ts /\ st_id t = (c, r) /\ ranks o (st_out t) v) /\ v <> FNaN /\
  (forall t, In t ts -> fst (st_id t) = c -> snd (st_id t) <= r /\ finished t).

(** The default configuration, when it is evaluated at the target fidelity, competes with
    nobody. *)
Definition takes_part (o : options) (c : nat) : Prop :=
  o_default_first o && o_default_at_target o = true -> c <> 0.

(** At least eta configurations wait at rung [r]. *)
Definition crowd (o : options) ts (eta r : nat) : Prop :=
  exists W, NoDup W /\ length W = eta /\
    forall c, In c W -> takes_part o c /\ exists v, waits o ts r c v.

(** ** Brackets *)
(** The brackets an optimizer goes through again and again. *)
Definition brackets_of (lg : Q -> nat -> Z) (k : kind) (f : fidelity) (eta : nat) (bs : list bracket) : Prop :=
  match k with
  | SuccessiveHalving s => exists b, make_bracket lg f eta s = Ok b /\ bs = [b]
  | Hyperband => exists b0, hyperband_brackets lg f eta = Ok (b0, bs)
  | _ => False
  end.
(** How many configurations a bracket starts with. *)
Definition width (b : bracket) (w : nat) : Prop := nget (b_min b) (b_sizes b) = Some w.
(** The n-th bracket that is run looks like [b] and its configurations have the numbers
    from [s] on; the first bracket starts at [d]. *)
Inductive nth_bracket (bs : list bracket) (d : nat) : nat -> bracket -> nat -> Prop :=
| nb_first : forall b, nth_error bs 0 = Some b -> nth_bracket bs d 0 b d
| nb_next : forall n b s w b', nth_bracket bs d n b s -> width b w ->
    nth_error bs (S n mod length bs) = Some b' -> nth_bracket bs d (S n) b' (s + w).
(** Number 0 is the default configuration if it is evaluated at the target fidelity. *)
Definition first_number (o : options) : nat := if o_default_at_target o && o_default_first o then 1 else 0.

(** How many evaluations at rung [r] there are of configurations numbered from [s] below
    [s + w] *)
Definition evaluations ts (s w r : nat) : nat :=
  length (filter (fun t => (s <=? fst (st_id t)) && (fst (st_id t) <? s + w) && (snd (st_id t) =? r)) ts).

(** For the asynchronous optimizers: the lowest rung at which a new configuration may
    start. *)
Definition lowest (k : kind) (draw : nat) : option nat :=
  match k with ASHA s => Some s | AsyncHyperband => Some draw | _ => None end.

(** ** The table *)
(** How the outcome of a finished evaluation appears in the table. *)
Definition appears (o : options) (x : outcome) (p : perf) : Prop :=
  (exists v, ranks o x v /\ p = PNum v) \/ x = Failed /\ o_ignore_errors o = true /\ p = PErr.
(** A row about a configuration none of whose evaluations is running: its highest one. *)
Definition settled_row (o : options) ts (x : row H) : Prop :=
  (forall t, In t ts -> fst (st_id t) = r_id x -> finished t /\ snd (st_id t) <= r_rung x) /\
  exists t, In t ts /\ st_id t = (r_id x, r_rung x) /\ st_hps t = r_hps x /\ st_fid t = r_fid x /\
    appears o (st_out t) (r_perf x).
(** A row about a configuration with a running evaluation: its rung, and no value. *)
Definition pending_row ts (x : row H) : Prop :=
  r_perf x = PNum FNaN /\ exists t, In t ts /\ st_id t = (r_id x, r_rung x) /\ st_out t = Pending /\
    st_hps t = r_hps x /\
    forall u, In u ts -> fst (st_id u) = r_id x -> snd (st_id u) <= r_rung x.

(** ** Examples of histories *)
Inductive event : Type := Asked (fresh : H) (draw : nat) | Reported (i : cid) (x : outcome).
Fixpoint report (i : cid) (x : outcome) ts : option (list (strial H)) :=
  match ts with
  | [] => None
  | t :: ts' => if Nat.eqb (fst i) (fst (st_id t)) && Nat.eqb (snd i) (snd (st_id t))
                then match st_out t, x with
                     | Pending, Pending => None
                     | Pending, _ => Some (with_outcome t x :: ts')
                     | _, _ => None
                     end
                else match report i x ts' with Some l => Some (t :: l) | None => None end
  end.
Fixpoint play (ask : list (strial H) -> H -> nat -> res (proposal H)) (es : list event) ts
  : option (list (strial H)) :=
  match es with
  | [] => Some ts
  | Asked h d :: es' => match ask ts h d with Ok q => play ask es' (stored q :: ts) | Err _ => None end
  | Reported i x :: es' => match report i x ts with Some ts' => play ask es' ts' | None => None end
  end.

(** [np.argsort] by insertion: an example. *)
Fixpoint insert_val (p : fl * nat) (l : list (fl * nat)) : list (fl * nat) :=
  match l with
  | [] => [p]
  | p' :: l' => if fl_ltb (fst p) (fst p') then p :: l else p' :: insert_val p l'
  end.
Definition insertion_argsort (l : list fl) : list nat :=
  map snd (fold_left (fun acc p => insert_val p acc) (combine l (seq 0 (length l))) []).
End Spec.
