(** Specification of a shared resource: an append-only log of accepted writes.
    Independent of versions, files and caches. *)
From Verif Require Import Base Store_model.

Section Spec.
Context {T : Type}.

(** [log]: all accepted writes, oldest first (empty: not created yet).
    [seen w]: how many of them worker [w] knew when it last touched the resource.
    [draft w]: [w]'s private modification of what it last saw, not put yet. *)
Record reg : Type := mkReg {
  log : list T;
  seen : nat -> option nat;
  draft : nat -> option T }.

Definition reg0 : reg := mkReg [] (fun _ => None) (fun _ => None).

Definition latest (r : reg) : option T := last (map Some (log r)) None.

(** What [w] would put if it put its own object. *)
Definition own (r : reg) (w : nat) : option T :=
  match draft r w with
  | Some x => Some x
  | None => match seen r w with Some (S n) => nth_error (log r) n | _ => None end
  end.

(** A write by [w] is accepted iff [w] has seen every accepted write. *)
Definition up_to_date (r : reg) (w : nat) : bool :=
  match seen r w with Some n => Nat.eqb n (length (log r)) | None => false end.

Definition accept (r : reg) (w : nat) (x : T) : reg :=
  mkReg (log r ++ [x]) (upd (seen r) w (Some (S (length (log r))))) (upd (draft r) w None).

Definition catch_up (r : reg) (w : nat) : reg :=
  mkReg (log r) (upd (seen r) w (Some (length (log r)))) (upd (draft r) w None).

Definition spec_put (r : reg) (w : nat) (x : option T) : reg * out T :=
  match seen r w, x with
  | None, _ => (r, OutNoHandle)
  | Some _, Some y =>
      if up_to_date r w then (accept r w y, OutUnit)
      else (mkReg (log r) (seen r) (upd (draft r) w None), OutErr VersionMismatchError)
  | Some _, None => (r, OutErr VersionMismatchError)
  end.

Definition spec_step (r : reg) (o : op T) : reg * out T :=
  match o with
  | ONew w x =>
      match log r with
      | [] => (accept r w x, OutUnit)
      | _ => (r, OutErr VersionedResourceAlreadyExistsError)
      end
  | OLoad w =>
      match latest r with
      | None => (r, OutErr VersionedResourceDoesNotExistsError)
      | Some x => (catch_up r w, OutVal x)
      end
  | OSynced w =>
      match seen r w, latest r with
      | Some _, Some x => (catch_up r w, OutVal x)
      | _, _ => (r, OutNoHandle)
      end
  | OPut w x => spec_put r w (Some x)
  | OPutCur w => spec_put r w (own r w)
  | OAcquire w f =>
      match seen r w, latest r with
      | Some _, Some x =>
          match f x with
          | Some y => (accept r w y, OutVal x)
          | None => (catch_up r w, OutVal x)
          end
      | _, _ => (r, OutNoHandle)
      end
  | OMutate w f =>
      match seen r w with
      | None => (r, OutNoHandle)
      | Some _ =>
          (mkReg (log r) (seen r)
             (match own r w with Some x => upd (draft r) w (Some (f x)) | None => draft r end),
           OutUnit)
      end
  | OLockFail w => (r, OutErr LockFailedError)
  end.

Fixpoint spec_run (r : reg) (os : list (op T)) : reg * list (out T) :=
  match os with
  | [] => (r, [])
  | o :: os' =>
      let '(r1, x) := spec_step r o in
      let '(r2, xs) := spec_run r1 os' in
      (r2, x :: xs)
  end.

(** Calling discipline: a worker does not ask for the current value again
    (synced / acquire) while it holds a modification of the latest value that it
    has not tried to put. *)
Definition disciplined_op (r : reg) (o : op T) : bool :=
  match o with
  | OSynced w | OAcquire w _ =>
      match draft r w with None => true | Some _ => negb (up_to_date r w) end
  | _ => true
  end.

Fixpoint disciplined (r : reg) (os : list (op T)) : bool :=
  match os with
  | [] => true
  | o :: os' => disciplined_op r o && disciplined (fst (spec_step r o)) os'
  end.

(** Which worker an operation belongs to; whether it is a modifying in-memory
    step; whether an output says "accepted write". *)
Definition op_worker (o : op T) : nat :=
  match o with
  | ONew w _ | OLoad w | OSynced w | OPut w _ | OAcquire w _ | OMutate w _
  | OPutCur w | OLockFail w => w
  end.

(** Did this operation, with this observed outcome, store something? *)
Definition stored (o : op T) (x : out T) : bool :=
  match o, x with
  | ONew _ _, OutUnit => true
  | OPut _ _, OutUnit => true
  | OPutCur _, OutUnit => true
  | OAcquire _ f, OutVal y => match f y with Some _ => true | None => false end
  | _, _ => false
  end.

(** Did this operation, with this observed outcome, bring its worker up to date? *)
Definition refreshed (o : op T) (x : out T) : bool :=
  match o, x with
  | ONew _ _, OutUnit => true
  | OPut _ _, OutUnit => true
  | OPutCur _, OutUnit => true
  | OLoad _, OutVal _ | OSynced _, OutVal _ | OAcquire _ _, OutVal _ => true
  | _, _ => false
  end.

End Spec.
Arguments reg : clear implicits.
