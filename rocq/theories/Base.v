(** Results with Python exceptions as values. *)
From Coq Require Export List Arith ZArith Bool Lia.
Export ListNotations.

(** The exception classes raised by the modelled code:
    neps/exceptions.py:1-54, neps/state/protocols.py, plus the Python builtins that occur. *)
Inductive exn : Type :=
| VersionedResourceAlreadyExistsError
| VersionedResourceDoesNotExistsError
| VersionedResourceRemovedError
| VersionMismatchError
| LockFailedError
| TrialAlreadyExistsError
| TrialNotFoundError
| WorkerFailedToGetPendingTrialsError
| WorkerRaiseError
| NePSError
| NotReportedYetError
| UnboundLocalError
| FileNotFoundError
| YamlTypeError
| KeyError
| IndexError
| ValueError
| TypeError
| AttributeError
| ZeroDivisionError
| RuntimeError
| AssertionError
| NotImplementedError
| OverflowError
| OutOfFuel.

(** A Python call either returns a value or raises. *)
Inductive res (A : Type) : Type :=
| Ok (a : A)
| Err (e : exn).
Arguments Ok {A} a.
Arguments Err {A} e.

Definition bind {A B} (r : res A) (k : A -> res B) : res B :=
  match r with Ok a => k a | Err e => Err e end.

Definition is_ok {A} (r : res A) : bool :=
  match r with Ok _ => true | Err _ => false end.

(** Function update on [nat]-indexed maps (used for per-worker state). *)
Definition upd {A} (f : nat -> A) (k : nat) (v : A) : nat -> A :=
  fun k' => if Nat.eqb k' k then v else f k'.
