(** What is expected of numeric domains, in exact arithmetic. *)
From Verif Require Export Dom_model.
Open Scope Q_scope.

(** A range of integers or of numbers, linear or logarithmic, possibly cut into bins. *)
Inductive desc : Type :=
| DInt (l u : Z) (log : bool) (bins : option Z)
| DFloat (l u : Q) (log : bool) (bins : option Z).

Definition lo (s : desc) : Q := match s with DInt l _ _ _ => inject_Z l | DFloat l _ _ _ => l end.
Definition hi (s : desc) : Q := match s with DInt _ u _ _ => inject_Z u | DFloat _ u _ _ => u end.
Definition is_log (s : desc) : bool := match s with DInt _ _ g _ => g | DFloat _ _ g _ => g end.
Definition bins_of (s : desc) : option Z := match s with DInt _ _ _ b => b | DFloat _ _ _ b => b end.
Definition integral (s : desc) : bool := match s with DInt _ _ _ _ => true | DFloat _ _ _ _ => false end.

(** Legal descriptions: a range, positive if logarithmic, with at least two bins if any. *)
Definition good (s : desc) : Prop :=
  lo s < hi s /\ (is_log s = true -> 0 < lo s) /\ (forall b, bins_of s = Some b -> (2 <= b)%Z).

(** An integer at a distance of at most one half. *)
Definition near (z : Z) (x : Q) : Prop := - (1 # 2) <= x - inject_Z z /\ x - inject_Z z <= 1 # 2.

Section Legal.
  Variables lnf expf : Q -> Q.

  (** How the constructors are called for a description. *)
  Definition make (s : desc) (cat : bool) : res (domain (option Q)) :=
    match s with
    | DInt l u g b => integer (Qar lnf expf) (Some (inject_Z l)) (Some (inject_Z u)) g b cat
    | DFloat l u g b => floating (Qar lnf expf) (Some l) (Some u) g b cat
    end.

  (** The point at the fraction [t] of the range. *)
  Definition point (s : desc) (t : Q) : Q :=
    if is_log s then expf (lnf (lo s) + t * (lnf (hi s) - lnf (lo s)))
    else lo s + t * (hi s - lo s).

  (** The legal values: within the bounds, integers if the range is one of integers, at one of
      [b] equidistant points if there are bins (nearest integer to it). *)
  Definition legal (s : desc) (x : Q) : Prop :=
    lo s <= x /\ x <= hi s /\
    (integral s = true -> exists z, x == inject_Z z) /\
    (forall b, bins_of s = Some b -> exists k, (0 <= k < b)%Z /\
       if integral s
       then exists z, x == inject_Z z /\ near z (point s (inject_Z k / inject_Z (b - 1)))
       else x == point s (inject_Z k / inject_Z (b - 1))).

  (** What is needed of log and exp at the bounds. *)
  Definition log_ok (s : desc) : Prop :=
    is_log s = true ->
    lnf (lo s) < lnf (hi s) /\ expf (lnf (lo s)) == lo s /\ expf (lnf (hi s)) == hi s /\
    (forall x y, x <= y -> expf x <= expf y).

  (** Increasing functions that are inverse to each other. *)
  Definition ideal : Prop :=
    (forall x y, 0 < x -> x < y -> lnf x < lnf y) /\
    (forall x y, x == y -> lnf x == lnf y) /\
    (forall x y, x <= y -> expf x <= expf y) /\
    (forall x, 0 < x -> expf (lnf x) == x) /\
    (forall y, lnf (expf y) == y) /\
    (forall y, 0 < expf y).
End Legal.

(** The result of an operation on numbers is a number, equal to [v]. *)
Definition gives (r : option Q) (v : Q) : Prop := exists w, r = Some w /\ w == v.

(** Domains whose values are the points that the unit interval is quantised to: all but
    logarithmic or binned ranges of integers. *)
Definition exact (s : desc) : Prop :=
  match s with DInt _ _ g b => g = false /\ b = None | DFloat _ _ _ _ => True end.

(** The number of values if it is finite. *)
Definition size_of (s : desc) : option Z :=
  match s with
  | DInt _ _ _ (Some b) => Some b
  | DInt l u _ None => Some (u - l + 1)%Z
  | DFloat _ _ _ b => b
  end.
(** The bounds of [s], which is not quantised, happen to be the logarithms of those of [s']. *)
Definition log_coincidence (lnf : Q -> Q) (s s' : desc) : Prop :=
  size_of s = None /\ is_log s' = true /\ lo s == lnf (lo s') /\ hi s == lnf (hi s').

(** An increasing function and its inverse, to instantiate [ideal]. *)
Definition pln (x : Q) : Q := if Qle_bool x 1 then 1 - / x else x - 1.
Definition pexp (y : Q) : Q := if Qle_bool y 0 then / (1 - y) else y + 1.

(** Some doubles. *)
Definition b64 (s : bool) (m : positive) (e : Z) : spec_float := S754_finite s m e.
Definition Bar64 (lnf expf : spec_float -> spec_float) : arith spec_float := Bar 53 1024 lnf expf.
