(** Vocabulary for Bayesian optimization. *)
From Coq Require Import String.
From Verif Require Import Py Trial_model Limit_spec Init_model Space_model Bo_model.
Local Open Scope nat_scope.
Local Open Scope string_scope.
Local Open Scope list_scope.
Local Notation length := List.length.

(** ** Rows *)
(** Rows of numbers, none of them NaN, all of one length *)
Definition proper_rows (m : nat) (l : list row) : Prop := forall r, In r l -> length r = m /\ ~ In FNaN r.
(** The order of rows: at the first place where they differ *)
Inductive lex : row -> row -> Prop :=
| lex_here : forall x y a b, fl_lt x y -> lex (x :: a) (y :: b)
| lex_later : forall x a b, lex a b -> lex (x :: a) (x :: b).
(** [out]: the [k] least of the rows of [l], or all if there are fewer, each once, in order *)
Definition least_rows (k : nat) (l out : list row) : Prop :=
  incl out l /\ NoDup out /\ ForallOrdPairs lex out /\ length out <= k /\
  forall r, In r l -> ~ In r out -> length out = k /\ forall r', In r' out -> lex r' r.

(** ** The initial design *)
(** The value that a request for a fidelity gives *)
Inductive wanted (s : bospace) : fidelity_arg -> string -> pyval -> Prop :=
| w_min : forall k h, In (k, h) (bs_fid s) -> wanted s FMin k (hp_lower h)
| w_max : forall k h, In (k, h) (bs_fid s) -> wanted s FMax k (hp_upper h)
| w_true : forall k h, In (k, h) (bs_fid s) -> wanted s FTrue k (hp_sample h)
| w_number : forall k h v, bs_fid s = [(k, h)] -> wanted s (FNumber v) k v
| w_map : forall d k v, lookup k d = Some v -> wanted s (FMap d) k v.
(** Requests that can be met *)
Definition can_fidelity (s : bospace) (f : fidelity_arg) : Prop :=
  match f with
  | FMin | FMax | FTrue => True
  | FNumber _ => length (bs_fid s) = 1
  | FMap d => forall k h, In (k, h) (bs_fid s) -> exists v, lookup k d = Some v
  | FOther => False
  end.
Definition can_size (n : size_arg) : Prop := match n with NInt z => (0 < z)%Z | _ => True end.
(** The number of sampled configurations asked for *)
Definition asked (s : bospace) (n : size_arg) : nat :=
  match n with NDim => bs_ndims s | NNone => 0 | NInt z => Z.to_nat z end.
(** A space, and a request, in which no name occurs twice *)
Definition good_space (s : bospace) : Prop := NoDup (map fst (bs_all s)) /\ NoDup (map fst (bs_fid s)).
Definition good_request (f : fidelity_arg) : Prop := match f with FMap d => NoDup (map fst d) | _ => True end.
(** [c] is [base] with the wanted fidelities *)
Definition at_fidelity (s : bospace) (f : fidelity_arg) (base c : dict) : Prop :=
  (forall k v, wanted s f k v -> lookup k c = Some v) /\
  (forall k, (forall v, ~ wanted s f k v) -> lookup k c = lookup k base).
(** The default configuration: the default of each hyperparameter, a sample where there is none *)
Definition is_default (s : bospace) (d : dict) : Prop :=
  forall k, lookup k d =
    match lookup k (bs_all s) with
    | None => None
    | Some h => Some (match hp_default h with Some v => v | None => hp_sample h end)
    end.

(** ** Data *)
(** The trials with reports, and those without, in their order *)
Inductive parts : list trial -> list (trial * report) -> list trial -> Prop :=
| pa_nil : parts [] [] []
| pa_seen : forall t r ts s p, t_report t = Some r -> parts ts s p -> parts (t :: ts) ((t, r) :: s) p
| pa_wait : forall t ts s p, t_report t = None -> parts ts s p -> parts (t :: ts) s (t :: p).
(** The losses that count: there is one, and it is not NaN *)
Definition loss_of (tr : trial * report) : list fl :=
  match r_loss (snd tr) with Some FNaN => [] | Some l => [l] | None => [] end.
Definition known_losses (s : list (trial * report)) : list fl := flat_map loss_of s.
(** A median: one of the values; fewer than half of them are less, at most half are greater *)
Definition is_median (m : fl) (l : list fl) : Prop :=
  In m l /\ 2 * length (filter (fun x => fl_ltb x m) l) < length l /\ 2 * length (filter (fun x => fl_ltb m x) l) <= length l.
(** The target for a report, among those of [s]: its loss, infinities replaced by the greatest finite
    numbers; the median of the losses if there is no loss or it is NaN *)
Inductive target (s : list (trial * report)) : report -> fl -> Prop :=
| ta_loss : forall r z, r_loss r = Some (FZ z) -> target s r (FZ z)
| ta_pinf : forall r, r_loss r = Some FPInf -> target s r (FZ fl_max)
| ta_ninf : forall r, r_loss r = Some FNInf -> target s r (FZ (- fl_max))
| ta_missing : forall r m, (r_loss r = None \/ r_loss r = Some FNaN) -> is_median m (known_losses s) -> target s r m
| ta_nothing : forall r, (r_loss r = None \/ r_loss r = Some FNaN) -> known_losses s = [] -> target s r FNaN.

(** ** Asking *)
(** A report with a loss that is a number *)
Definition has_loss (t : trial) (l : fl) : Prop := exists r, t_report t = Some r /\ r_loss r = Some l /\ l <> FNaN.
Definition lacks_loss (t : trial) : Prop := exists r, t_report t = Some r /\ (r_loss r = None \/ r_loss r = Some FNaN).
(** Targets can be made for the model: there is a loss, and it is not that a loss is missing while the
    median of the others is infinite *)
Definition enough_losses (ts : list trial) : Prop :=
  (exists t l, In t ts /\ has_loss t l) /\
  forall t s p m, In t ts -> lacks_loss t -> parts ts s p -> is_median m (known_losses s) -> exists z, m = FZ z.
(** Every report has a finite cost, a positive one if they are seen on a log scale *)
Definition enough_costs (log_scale : bool) (ts : list trial) : Prop :=
  forall t r, In t ts -> t_report t = Some r -> exists z, r_cost r = Some (FZ z) /\ (log_scale = true -> (0 < z)%Z).
(** A budget of which a part between nothing and all is used *)
Definition within_budget (b : option budget) : Prop :=
  exists u m, option_map b_used_cost b = Some u /\ option_map b_max_cost b = Some (Some m) /\
  ((exists zu zm, u = FZ zu /\ m = FZ zm /\ ((0 < zm)%Z /\ (0 <= zu <= zm)%Z \/ (zm < 0)%Z /\ (zm <= zu <= 0)%Z)) \/
   (exists zu, u = FZ zu) /\ (m = FPInf \/ m = FNInf)).
(** A possible choice of categories: one of the choices for every column *)
Definition choice_of (cats : list (nat * nat)) (fix_ : list (nat * nat)) : Prop :=
  Forall2 (fun c f => fst f = fst c /\ snd f < snd c) cats fix_.
Definition combinations (cats : list (nat * nat)) : nat := fold_right (fun c n => snd c * n) 1 cats.

(** The reports of trials, and reports whose cost, if there is one, is finite and not negative *)
Definition reports_of (ts : list trial) : list report := flat_map (fun t => match t_report t with Some r => [r] | None => [] end) ts.
Definition cost_ok (r : report) : Prop := forall c, r_cost r = Some c -> exists z, c = FZ z /\ (0 <= z)%Z.
