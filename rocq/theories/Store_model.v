(** Model of one versioned, lock-protected shared resource.
    neps/state/protocols.py (VersionedResource, Synced) on top of
    neps/state/filebased.py:67-83 (FileVersioner).

    Every operation of [Synced] holds the resource's file lock for its whole
    duration, hence is one atomic step here (mutual exclusion of portalocker is
    trusted).  Crashes in the middle of an operation are modelled in
    Fs_model.v, Repo_model.v and Init_model.v.  Versions are natural numbers taken from a counter:
    [uuid4().hex] is assumed never to repeat. *)
From Verif Require Import Base.

Section Store.
Context {T : Type}.

(** Contents of the resource's directory: the [.version] file and the data
    written by the ReaderWriter; [fresh] is the next uuid. *)
Record disk : Type := mkDisk {
  d_version : option nat;
  d_data : option T;
  d_fresh : nat }.

(** A VersionedResource object in some process: neps/state/protocols.py:159-163
    ([_current], [_version]). *)
Record handle : Type := mkHandle { h_current : T; h_version : nat }.

(** neps/state/filebased.py:79-83 FileVersioner.bump *)
Definition bump (d : disk) : disk * nat :=
  (mkDisk (Some (d_fresh d)) (d_data d) (S (d_fresh d)), d_fresh d).

(** ReaderWriter.write / ReaderWriter.read, abstractly (one cell). *)
Definition write (d : disk) (x : T) : disk :=
  mkDisk (d_version d) (Some x) (d_fresh d).
Definition read (d : disk) : res T :=
  match d_data d with Some x => Ok x | None => Err FileNotFoundError end.

(** neps/state/protocols.py:165-209 VersionedResource.new *)
Definition vr_new (d : disk) (x : T) : disk * res handle :=
  match d_version d with
  | Some _ => (d, Err VersionedResourceAlreadyExistsError)
  | None =>
      let '(d1, v) := bump d in
      let d2 := write d1 x in
      (d2, Ok (mkHandle x v))
  end.

(** neps/state/protocols.py:211-251 VersionedResource.load *)
Definition vr_load (d : disk) : res handle :=
  match d_version d with
  | None => Err VersionedResourceDoesNotExistsError
  | Some v => bind (read d) (fun x => Ok (mkHandle x v))
  end.

(** neps/state/protocols.py:258-269 VersionedResource.sync *)
Definition vr_sync (d : disk) (h : handle) : res handle :=
  match d_version d with
  | None => Err VersionedResourceRemovedError
  | Some v =>
      if Nat.eqb (h_version h) v then Ok h
      else bind (read d) (fun x => Ok (mkHandle x v))
  end.

(** neps/state/protocols.py:271-292 VersionedResource.put *)
Definition vr_put (d : disk) (h : handle) (x : T) : disk * handle * res unit :=
  match d_version d with
  | None => (d, h, Err VersionMismatchError)
  | Some v =>
      if Nat.eqb (h_version h) v then
        let d1 := write d x in
        let '(d2, v') := bump d1 in
        (d2, mkHandle x v', Ok tt)
      else (d, h, Err VersionMismatchError)
  end.

(** Operations of worker [w] on its own handle. *)
Inductive op : Type :=
| ONew (w : nat) (x : T)          (* Synced.new, protocols.py:356-397 *)
| OLoad (w : nat)                 (* Synced.load, protocols.py:399-439 *)
| OSynced (w : nat)               (* Synced.synced, protocols.py:491-494 *)
| OPut (w : nat) (x : T)          (* Synced.put, protocols.py:500-503 *)
| OAcquire (w : nat) (f : T -> option T)
      (* Synced.acquire, protocols.py:505-523, with a body that computes
         [f current] and puts it ([None]: the body raises before its put) *)
| OMutate (w : nat) (f : T -> T)
      (* in-place mutation of the object returned by synced(): it is the cached
         [_current] object itself, protocols.py:253-256, 294-296 *)
| OPutCur (w : nat)               (* put of that very object, protocols.py:500-503 *)
| OLockFail (w : nat).            (* any call whose lock acquisition times out:
                                     filebased.py:458-486 *)

(** What the caller observes. *)
Inductive out : Type :=
| OutUnit                        (* returned *)
| OutVal (x : T)                 (* returned this value *)
| OutErr (e : exn)               (* raised *)
| OutNoHandle.                   (* not callable: the worker has no handle *)

(** Global state: the disk and each worker's handle. *)
Record world : Type := mkWorld { w_disk : disk; w_h : nat -> option handle }.

Definition init : world := mkWorld (mkDisk None None 0) (fun _ => None).

Definition step (s : world) (o : op) : world * out :=
  match o with
  | ONew w x =>
      let '(d, r) := vr_new (w_disk s) x in
      match r with
      | Ok h => (mkWorld d (upd (w_h s) w (Some h)), OutUnit)
      | Err e => (mkWorld d (w_h s), OutErr e)
      end
  | OLoad w =>
      match vr_load (w_disk s) with
      | Ok h => (mkWorld (w_disk s) (upd (w_h s) w (Some h)), OutVal (h_current h))
      | Err e => (s, OutErr e)
      end
  | OSynced w =>
      match w_h s w with
      | None => (s, OutNoHandle)
      | Some h =>
          match vr_sync (w_disk s) h with
          | Ok h' => (mkWorld (w_disk s) (upd (w_h s) w (Some h')), OutVal (h_current h'))
          | Err e => (s, OutErr e)
          end
      end
  | OPut w x =>
      match w_h s w with
      | None => (s, OutNoHandle)
      | Some h =>
          let '(d, h', r) := vr_put (w_disk s) h x in
          (mkWorld d (upd (w_h s) w (Some h')),
           match r with Ok _ => OutUnit | Err e => OutErr e end)
      end
  | OAcquire w f =>
      match w_h s w with
      | None => (s, OutNoHandle)
      | Some h =>
          match vr_sync (w_disk s) h with
          | Err e => (s, OutErr e)
          | Ok h1 =>
              match f (h_current h1) with
              | None => (mkWorld (w_disk s) (upd (w_h s) w (Some h1)), OutVal (h_current h1))
              | Some y =>
                  let '(d, h2, r) := vr_put (w_disk s) h1 y in
                  (mkWorld d (upd (w_h s) w (Some h2)),
                   match r with Ok _ => OutVal (h_current h1) | Err e => OutErr e end)
              end
          end
      end
  | OMutate w f =>
      match w_h s w with
      | None => (s, OutNoHandle)
      | Some h =>
          (mkWorld (w_disk s) (upd (w_h s) w (Some (mkHandle (f (h_current h)) (h_version h)))),
           OutUnit)
      end
  | OPutCur w =>
      match w_h s w with
      | None => (s, OutNoHandle)
      | Some h =>
          let '(d, h', r) := vr_put (w_disk s) h (h_current h) in
          (mkWorld d (upd (w_h s) w (Some h')),
           match r with Ok _ => OutUnit | Err e => OutErr e end)
      end
  | OLockFail w => (s, OutErr LockFailedError)
  end.

(** A schedule is a list of operations; the trace is what the callers observe. *)
Fixpoint run (s : world) (os : list op) : world * list out :=
  match os with
  | [] => (s, [])
  | o :: os' =>
      let '(s1, x) := step s o in
      let '(s2, xs) := run s1 os' in
      (s2, x :: xs)
  end.

(** neps/state/protocols.py:441-489 Synced.new_or_load: two lock-protected
    sections, so other workers may act in between.  [pc] of a worker calling it. *)
Inductive nl_pc : Type :=
| NLStart
| NLNeedLoad                     (* new raised AlreadyExists, about to load *)
| NLCreated (h : handle)         (* returned from the first section *)
| NLLoaded (h : handle)          (* returned from the second section *)
| NLRaised (e : exn).

Definition nl_step (data : nat -> T) (d : disk) (pcs : nat -> nl_pc) (w : nat)
  : disk * (nat -> nl_pc) :=
  match pcs w with
  | NLStart =>
      let '(d', r) := vr_new d (data w) in
      match r with
      | Ok h => (d', upd pcs w (NLCreated h))
      | Err VersionedResourceAlreadyExistsError => (d', upd pcs w NLNeedLoad)
      | Err e => (d', upd pcs w (NLRaised e))
      end
  | NLNeedLoad =>
      match vr_load d with
      | Ok h => (d, upd pcs w (NLLoaded h))
      | Err e => (d, upd pcs w (NLRaised e))
      end
  | _ => (d, pcs)
  end.

Fixpoint nl_run (data : nat -> T) (d : disk) (pcs : nat -> nl_pc) (sched : list nat)
  : disk * (nat -> nl_pc) :=
  match sched with
  | [] => (d, pcs)
  | w :: ws => let '(d', pcs') := nl_step data d pcs w in nl_run data d' pcs' ws
  end.

End Store.
Arguments disk : clear implicits.
Arguments handle : clear implicits.
Arguments op : clear implicits.
Arguments out : clear implicits.
Arguments world : clear implicits.
Arguments nl_pc : clear implicits.
