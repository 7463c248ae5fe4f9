(** What is expected of samplers and priors, in exact arithmetic. *)
From Verif Require Export Prior_model Dom_spec.
Open Scope Q_scope.
Local Notation length := List.length.

Section Spec.
  Variables lnf expf : Q -> Q.

  (** The [n] domains asked for, a single one or one for each column, are those described. *)
  Definition targets (n : nat) (ss : list desc) (to : domain (option Q) + list (domain (option Q))) : Prop :=
    Forall good ss /\ Forall (log_ok lnf expf) ss /\
    match to with
    | inl d => exists s cat, make lnf expf s cat = Ok d /\ ss = repeat s n
    | inr ds => length ds = n /\ Forall2 (fun s d => exists cat, make lnf expf s cat = Ok d) ss ds
    end.

  (** The corner given by a choice of the lower or the upper end of each range. *)
  Definition corner (ss : list desc) (c : list bool) (r : list (option Q)) : Prop :=
    length c = length ss /\
    Forall2 gives r (map (fun p => if snd p : bool then hi (fst p) else lo (fst p)) (combine ss c)).

  (** A row of legal values. *)
  Definition legal_row (ss : list desc) (r : list (option Q)) : Prop :=
    Forall2 (fun s x => exists v, x = Some v /\ legal lnf expf s v) ss r.
  (** A row of numbers in the unit interval. *)
  Definition unit_row (n : nat) (r : list (option Q)) : Prop :=
    length r = n /\ Forall (fun x => exists v, x = Some v /\ 0 <= v /\ v <= 1) r.

  (** The dtype does not matter: it is not an integer type, or all values are integers. *)
  Definition dtype_fits (ss : list desc) (dt : option bool) : Prop :=
    dt <> Some false \/ Forall (fun s => integral s = true) ss.
End Spec.

(** The sum of numbers. *)
Definition sumq (l : list Q) : Q := fold_right Qplus 0 l.

(** ** Log-probabilities *)
Section LogProb.
  Variables lnf expf : Q -> Q.
  Variables (cat_logp : list (option Q) -> option Q -> option Q) (c_log : option Q).
  Notation A := (Qar lnf expf).

  (** [t] is the log-probability of the value under the distribution of its column. *)
  Definition own (d : dist (option Q)) (f : domain (option Q)) (v : option Q) (t : Q) : Prop :=
    gives (dist_logp A cat_logp c_log d (cast A (dist_dom A d) f v)) t.
  (** The log-probabilities of the values of a row, column by column. *)
  Inductive owns : list (dist (option Q)) -> list (domain (option Q)) -> list (option Q) -> list Q -> Prop :=
  | owns_nil : owns [] [] [] []
  | owns_cons d ds f fs v r t ts : own d f v t -> owns ds fs r ts -> owns (d :: ds) (f :: fs) (v :: r) (t :: ts).
End LogProb.

(** ** Priors for parameters *)
Section Declared.
  Variables lnf expf : Q -> Q.
  Notation A := (Qar lnf expf).
  (** A parameter as its constructor gives it, with a default: its range and the default, for a
      categorical parameter the indices of the choices and that of the default. *)
  Inductive declared : param (option Q) -> desc -> Q -> Prop :=
  | declared_float l u log fid x conf p :
      float_parameter A (Some l) (Some u) log fid (Some (Some x)) conf = Ok p ->
      declared (PF p) (DFloat l u log None) x
  | declared_int l u log fid x conf p :
      integer_parameter A (Some (inject_Z l)) (Some (inject_Z u)) log fid (Some (Some (inject_Z x))) conf = Ok p ->
      declared (PI p) (DInt l u log None) (inject_Z x)
  | declared_cat cs v conf p i :
      categorical_parameter cs (Some v) conf = Ok p -> nth_error cs i = Some v -> py_eqb v v = true ->
      (forall j w, nth_error cs j = Some w -> py_eqb w v = true -> j = i) ->
      declared (PC p) (DInt 0 (Z.of_nat (length cs) - 1) false None) (inject_Z (Z.of_nat i)).
  (** The same without a default. *)
  Inductive undeclared : param (option Q) -> Prop :=
  | undeclared_float l u log fid conf p : float_parameter A l u log fid None conf = Ok p -> undeclared (PF p)
  | undeclared_int l u log fid conf p : integer_parameter A l u log fid None conf = Ok p -> undeclared (PI p)
  | undeclared_cat cs conf p : categorical_parameter cs None conf = Ok p -> undeclared (PC p).
End Declared.

(** What a distribution may give: a number of the unit interval, or the index of a choice of a
    categorical distribution over indices. *)
Inductive draws (lnf expf : Q -> Q) : dist (option Q) -> option Q -> Prop :=
| draws_unit v : 0 <= v -> v <= 1 -> draws lnf expf DUnit (Some v)
| draws_trunc t v : 0 <= v -> v <= 1 -> draws lnf expf (DTrunc t) (Some v)
| draws_cat ws n d k : indices (Qar lnf expf) n true = Ok d -> (2 <= n)%Z -> (0 <= k < n)%Z ->
    draws lnf expf (DCat ws d) (Some (inject_Z k)).

(** What is needed of erf and erfinv, and of the constant that keeps things away from zero. *)
Definition numeric (f : option Q -> option Q) : Prop := forall q, exists r, f (Some q) = Some r.
Definition small (e : Q) : Prop := 0 < e /\ e < 1 # 2.

(** The confidence a parameter was declared with, and the standard deviation of its prior on the
    unit interval. *)
Definition conf_of (p : param (option Q)) : string :=
  match p with PF p => fp_conf p | PI p => ip_conf p | PC p => cp_conf p | PK _ => "" end.
Inductive deviation : string -> Q -> Prop :=
| dev_low : deviation "low" (3 # 4) | dev_medium : deviation "medium" (1 # 2) | dev_high : deviation "high" (1 # 4).
