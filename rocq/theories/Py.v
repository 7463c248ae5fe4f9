(** Python values used by the model. *)
From Verif Require Export Base.
From Coq Require Export String.
Open Scope string_scope.
Open Scope list_scope.

(** IEEE doubles.  A finite double is an integer multiple of 2^-1074; [FZ z] stands
    for z * 2^-1074.  Simplification: all integers [z] are allowed and addition does
    not round or overflow. *)
Inductive fl : Type := FNaN | FPInf | FNInf | FZ (z : Z).

Definition fl_unit : Z := Z.pow 2 1074.
Global Arguments fl_unit : simpl never.
Definition fl_of_Z (z : Z) : fl := FZ (z * fl_unit).
Global Arguments fl_of_Z : simpl never.

Definition fl_isnan (x : fl) : bool := match x with FNaN => true | _ => false end.

(** Python [==], [<], [>=] on floats. *)
Definition fl_eqb (x y : fl) : bool :=
  match x, y with
  | FPInf, FPInf => true
  | FNInf, FNInf => true
  | FZ a, FZ b => Z.eqb a b
  | _, _ => false
  end.

Definition fl_ltb (x y : fl) : bool :=
  match x, y with
  | FNaN, _ | _, FNaN => false
  | FNInf, FNInf => false
  | FNInf, _ => true
  | _, FNInf => false
  | FPInf, _ => false
  | FZ _, FPInf => true
  | FZ a, FZ b => Z.ltb a b
  end.

Definition fl_geb (x y : fl) : bool := fl_ltb y x || fl_eqb x y.

Definition fl_add (x y : fl) : fl :=
  match x, y with
  | FNaN, _ | _, FNaN => FNaN
  | FPInf, FNInf | FNInf, FPInf => FNaN
  | FPInf, _ | _, FPInf => FPInf
  | FNInf, _ | _, FNInf => FNInf
  | FZ a, FZ b => FZ (a + b)
  end.

(** Python [sum] of a generator of floats: starts from the int 0. *)
Definition fl_sum (l : list fl) : fl := fold_left fl_add l (FZ 0).

(** Python objects that occur in configs, user results and reports.
    [VObj n]: any object that is neither of the others and cannot be written to
    YAML; two of them are equal iff they are the same object [n]. *)
Inductive pyval : Type :=
| VNone
| VBool (b : bool)
| VInt (z : Z)
| VFloat (f : fl)
| VStr (s : string)
| VList (l : list pyval)
| VTuple (l : list pyval)
| VDict (d : list (string * pyval))
| VObj (n : nat).

(** Dictionaries are association lists in insertion order. *)
Definition dict := list (string * pyval).

Fixpoint lookup {A} (k : string) (d : list (string * A)) : option A :=
  match d with
  | [] => None
  | (k', v) :: d' => if String.eqb k k' then Some v else lookup k d'
  end.

Fixpoint remove_key {A} (k : string) (d : list (string * A)) : list (string * A) :=
  match d with
  | [] => []
  | (k', v) :: d' => if String.eqb k k' then remove_key k d' else (k', v) :: remove_key k d'
  end.

(** [d[k] = v] *)
Fixpoint set_key {A} (k : string) (v : A) (d : list (string * A)) : list (string * A) :=
  match d with
  | [] => [(k, v)]
  | (k', v') :: d' => if String.eqb k k' then (k', v) :: d' else (k', v') :: set_key k v d'
  end.

Definition has_key {A} (k : string) (d : list (string * A)) : bool :=
  match lookup k d with Some _ => true | None => false end.

(** Number value of the numeric types ([True == 1 == 1.0]). *)
Definition as_num (v : pyval) : option fl :=
  match v with
  | VBool true => Some (fl_of_Z 1)
  | VBool false => Some (fl_of_Z 0)
  | VInt z => Some (fl_of_Z z)
  | VFloat f => Some f
  | _ => None
  end.

Fixpoint list_eqb {A} (eqb : A -> A -> bool) (l1 l2 : list A) : bool :=
  match l1, l2 with
  | [], [] => true
  | x :: l1', y :: l2' => eqb x y && list_eqb eqb l1' l2'
  | _, _ => false
  end.

(** Python [==] between two separately created values (no shared sub-objects, so
    the identity shortcut of list and dict comparison never applies; e.g. values
    read back from a file). *)
Fixpoint py_eqb (v w : pyval) {struct v} : bool :=
  match v, w with
  | VNone, VNone => true
  | VStr s, VStr t => String.eqb s t
  | VList l, VList m =>
      (fix go (l m : list pyval) {struct l} : bool :=
         match l, m with
         | [], [] => true
         | x :: l', y :: m' => py_eqb x y && go l' m'
         | _, _ => false
         end) l m
  | VTuple l, VTuple m =>
      (fix go (l m : list pyval) {struct l} : bool :=
         match l, m with
         | [], [] => true
         | x :: l', y :: m' => py_eqb x y && go l' m'
         | _, _ => false
         end) l m
  | VDict d, VDict e =>
      Nat.eqb (List.length d) (List.length e) &&
      (fix go (d : list (string * pyval)) : bool :=
         match d with
         | [] => true
         | (k, x) :: d' =>
             match lookup k e with Some y => py_eqb x y | None => false end && go d'
         end) d
  | VObj n, VObj m => Nat.eqb n m
  | _, _ =>
      match as_num v, as_num w with
      | Some a, Some b => fl_eqb a b
      | _, _ => false
      end
  end.

(** Well-formed: dictionary keys are distinct. *)
Fixpoint wf_val (v : pyval) : Prop :=
  match v with
  | VList l | VTuple l =>
      (fix go (l : list pyval) : Prop :=
         match l with [] => True | x :: l' => wf_val x /\ go l' end) l
  | VDict d =>
      NoDup (map fst d) /\
      (fix go (d : list (string * pyval)) : Prop :=
         match d with [] => True | (_, x) :: d' => wf_val x /\ go d' end) d
  | _ => True
  end.

(** No NaN anywhere inside. *)
Fixpoint nan_free (v : pyval) : Prop :=
  match v with
  | VFloat f => f <> FNaN
  | VList l | VTuple l =>
      (fix go (l : list pyval) : Prop :=
         match l with [] => True | x :: l' => nan_free x /\ go l' end) l
  | VDict d =>
      (fix go (d : list (string * pyval)) : Prop :=
         match d with [] => True | (_, x) :: d' => nan_free x /\ go d' end) d
  | _ => True
  end.
