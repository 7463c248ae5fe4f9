(** What is expected of search spaces and configurations, in exact arithmetic. *)
From Verif Require Export Space_model Param_spec.
From Coq Require Import Permutation Sorted Qabs.
Open Scope nat_scope.
Local Notation length := List.length.

(** How a parameter was defined: a configuration shares this with its space. *)
Inductive pdef : Type :=
| DF (l u : option Q) (log fid : bool) (default : option (option Q)) (conf : string)
| DI (l u : Z) (log fid : bool) (default : option Z) (conf : string)
| DC (cs : list pyval) (default : option pyval) (conf : string)
| DK (v : pyval).
Definition p_def (p : param (option Q)) : pdef :=
  match p with
  | PF p => DF (fp_lower p) (fp_upper p) (fp_log p) (fp_fid p) (fp_default p) (fp_conf p)
  | PI p => DI (ip_lower p) (ip_upper p) (ip_log p) (ip_fid p) (ip_default p) (ip_conf p)
  | PC p => DC (cp_choices p) (cp_default p) (cp_conf p)
  | PK p => DK (kp_value p)
  end.
Definition s_def (s : space (option Q)) : list (string * pdef) := map (fun kv => (fst kv, p_def (snd kv))) s.

(** The values that a parameter may have. *)
Definition legal (d : pdef) (v : hval (option Q)) : Prop :=
  match d, v with
  | DF (Some a) (Some b) _ _ _ _, HN (Some x) => (a <= x /\ x <= b)%Q
  | DI l u _ _ _ _, HN (Some x) => exists z, x = inject_Z z /\ (l <= z <= u)%Z
  | DC cs _ _, HC x => is_choice cs x
  | DK w, HC x => x = w
  | _, _ => False
  end.

(** Two dicts with the same names in the same order, and related values. *)
Definition paired {P Q} (R : string -> P -> Q -> Prop) (s : list (string * P)) (c : list (string * Q)) : Prop :=
  Forall2 (fun kv kv' => fst kv = fst kv' /\ R (fst kv) (snd kv) (snd kv')) s c.

Section S.
  Variables lnf expf : Q -> Q.
  Let A := Qar lnf expf.

  (** Parameters that can come about; the bounds of floats, the choices and the constants are
      not NaN. *)
  Definition preach (p : param (option Q)) : Prop :=
    match p with
    | PF p => exists a b, freach A (Some a) (Some b) p
    | PI p => exists l u, ireach A true l u p
    | PC p => exists cs, creach true cs p /\ no_nan cs
    | PK p => kp_default p = kp_value p /\ py_eqb (kp_value p) (kp_value p) = true
    end.
  (** Spaces, and configurations, that the constructor gives. *)
  Definition is_space (s : space (option Q)) : Prop :=
    exists l, NoDup (map fst l) /\ (forall k p, In (k, p) l -> preach p) /\ search_space l = Ok s.
  (** What can be drawn for the parameter. *)
  Definition fits (p : param (option Q)) (d : draw (option Q)) : Prop :=
    match p, d with
    | PF _, DNum _ | PI _, DNum _ | PK _, _ => True
    | PC p, DIdx n => n < length (cp_choices p)
    | _, _ => False
    end.
  (** The values differ. *)
  Definition differ (v w : option (hval (option Q))) : Prop :=
    match v, w with
    | Some (HN (Some x)), Some (HN (Some y)) => ~ (x == y)%Q
    | Some (HC x), Some (HC y) => py_eqb x y = false
    | _, _ => False
    end.
  (** Every parameter, the fidelity aside, has a value that it may have. *)
  Definition legal_space (s : space (option Q)) : Prop :=
    forall k p, In (k, p) s -> p_fid p = false -> exists v, p_value A p = Some v /\ legal (p_def p) v.
  (** Also the fidelity. *)
  Definition complete (s : space (option Q)) : Prop :=
    forall k p, In (k, p) s -> exists v, p_value A p = Some v /\ legal (p_def p) v.

  (** The value at the fraction [t] of the way from the lower to the upper bound, on the scale
      of the parameter; for integers between the bounds widened by 0.499999. *)
  Definition grid_point (d : pdef) (t : Q) (v : hval (option Q)) : Prop :=
    match d with
    | DF (Some a) (Some b) log _ _ _ =>
        exists x, v = HN (Some x) /\ (if log then x == expf (t * (lnf b - lnf a) + lnf a) else x == t * (b - a) + a)%Q
    | DI l u log _ _ _ =>
        let a := (inject_Z l - (499999 # 1000000))%Q in
        let b := (inject_Z u + (499999 # 1000000))%Q in
        v = HN (Some (inject_Z (rint_q (if log then expf (t * (lnf b - lnf a) + lnf a) else t * (b - a) + a)%Q)))
    | _ => False
    end.
  (** How far the [j]-th of [n] evenly spaced points is (0/0 is 0); without the end point the
      last one is missing. *)
  Definition place (n : nat) (endpoint : bool) (j : nat) : Q :=
    (inject_Z (Z.of_nat j) / inject_Z (Z.of_nat (if endpoint then n - 1 else n)))%Q.
  (** [v] is the [j]-th value of the grid of a parameter, with [n] values for numbers. *)
  Definition nth_point (n : nat) (endpoint : bool) (d : pdef) (j : nat) (v : hval (option Q)) : Prop :=
    match d with
    | DC cs _ _ => exists x, nth_error cs j = Some x /\ v = HC x
    | DK w => j = 0 /\ v = HC w
    | _ => j < n /\ grid_point d (place n endpoint j) v
    end.
  Definition points (n : nat) (d : pdef) : nat := match d with DC cs _ _ => length cs | DK _ => 1 | _ => n end.
End S.

(** ** Asking for configurations one after the other *)
(** The answers, when every answer becomes a trial. *)
Inductive asked {C} (ask : nat -> sampled C -> Prop) : list (sampled C) -> Prop :=
| asked_nil : asked ask []
| asked_snoc l c : asked ask l -> ask (length l) c -> asked ask (l ++ [c]).

(** ** Comparing *)
(** The values of two configurations count as equal: floats whose positions between the bounds
    differ by at most half of the eighth decimal, choices at the same position. *)
Definition alike (lnf : Q -> Q) (d : pdef) (v w : hval (option Q)) : Prop :=
  match d, v, w with
  | DF (Some a) (Some b) log _ _ _, HN (Some x), HN (Some y) =>
      let pos x := (if log then (lnf x - lnf a) / (lnf b - lnf a) else (x - a) / (b - a))%Q in
      (Qabs (pos x - pos y) <= 1 # 200000000)%Q
  | DI _ _ _ _ _ _, HN (Some x), HN (Some y) => (x == y)%Q
  | DC cs _ _, HC x, HC y => exists i, position cs x i /\ position cs y i
  | DK _, HC _, HC _ => True
  | _, _, _ => False
  end.

Section Compare.
  Variables lnf expf : Q -> Q.
  Let A := Qar lnf expf.
  (** The same, or neither has a value. *)
  Definition alike_at (p q : param (option Q)) : Prop :=
    match p_value A p, p_value A q with Some v, Some w => alike lnf (p_def p) v w | None, None => True | _, _ => False end.
  (** Configurations of the same space in which the same parameters have values. *)
  Definition comparable (s o : space (option Q)) : Prop :=
    paired (fun _ p q => (preach lnf expf p /\ preach lnf expf q /\ p_def q = p_def p) /\
      ((p_value A p = None /\ p_value A q = None) \/ exists v w, p_value A p = Some v /\ p_value A q = Some w)) s o.
  (** Every value is the one of [c1], or the one of [c2] unless it is the fidelity. *)
  Definition mixed (c1 c2 r : space (option Q)) : Prop :=
    paired (fun k p q => p_value A q = p_value A p \/
      (p_fid p = false /\ exists p2, lookup k c2 = Some p2 /\ p_value A q = p_value A p2)) c1 r.
End Compare.

(** ** What may change *)
(** Local mutation may change floats and integers that are not the fidelity, and categoricals
    if it is told to. *)
Definition touched (cats : bool) (p : param (option Q)) : bool :=
  negb (p_fid p) && match p with PK _ => false | PC _ => cats | _ => true end.
(** Crossover of two configurations. *)
Definition crossed (coins : string -> bool) (k : string) (p : param (option Q)) : bool := mutatable p && negb (p_fid p) && coins k.
(** Integers only on a linear scale, and with at least as many values as the grid has points. *)
Definition roomy (n : nat) (d : pdef) : Prop :=
  match d with DI l u log _ _ _ => log = false /\ (Z.of_nat n <= u - l + 1)%Z | _ => True end.
