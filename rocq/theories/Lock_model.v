(** Environment variables (neps/env.py) and the time for which a lock is waited for
    (neps/state/filebased.py:430-487 FileLocker, with portalocker 2, pyproject.toml:60). *)
From Coq Require Import String Ascii.
From Verif Require Import Py.
Local Open Scope nat_scope.
Local Open Scope string_scope.
Local Open Scope list_scope.

(** ** neps/env.py *)

(** [str.lower] of ASCII letters (env.py:28) *)
Definition lower_char (c : ascii) : ascii :=
  let n := nat_of_ascii c in if Nat.leb 65 n && Nat.leb n 90 then ascii_of_nat (n + 32) else c.
Fixpoint lower (s : string) : string := match s with EmptyString => EmptyString | String c r => String (lower_char c) (lower r) end.
(** env.py:26-28 is_nullable *)
Definition is_nullable (e : string) : bool := existsb (String.eqb (lower e)) ["none"; "n"; "null"].

(** The two kinds of variables (env.py:31-84) *)
Inductive sort : Type := Poll | Timeout.
(** 0.05, and 120 (env.py:34, 39) *)
Definition default_of (k : sort) : option fl :=
  match k with Poll => Some (FZ (3602879701896397 * Z.pow 2 1018)) | Timeout => Some (fl_of_Z 120) end.
(** env.py:31-84, in this order *)
Definition variables : list (string * sort) :=
  [("NEPS_TRIAL_FILELOCK_POLL", Poll); ("NEPS_TRIAL_FILELOCK_TIMEOUT", Timeout);
   ("NEPS_SEED_SNAPSHOT_FILELOCK_POLL", Poll); ("NEPS_SEED_SNAPSHOT_FILELOCK_TIMEOUT", Timeout);
   ("NEPS_OPTIMIZER_INFO_FILELOCK_POLL", Poll); ("NEPS_OPTIMIZER_INFO_FILELOCK_TIMEOUT", Timeout);
   ("NEPS_OPTIMIZER_STATE_FILELOCK_POLL", Poll); ("NEPS_OPTIMIZER_STATE_FILELOCK_TIMEOUT", Timeout);
   ("NEPS_GLOBAL_ERR_FILELOCK_POLL", Poll); ("NEPS_GLOBAL_ERR_FILELOCK_TIMEOUT", Timeout)].

Section Env.
  (** [float(text)] *)
  Variable float_of_text : string -> res fl.
  (** env.py:33, 38 *)
  Definition parse (k : sort) (e : string) : res (option fl) :=
    match k with
    | Poll => bind (float_of_text e) (fun f => Ok (Some f))
    | Timeout => if is_nullable e then Ok None else bind (float_of_text e) (fun f => Ok (Some f))
    end.
  (** env.py:15-23 get_env *)
  Definition get_env (environ : list (string * string)) (key : string) (k : sort) : res (option fl) :=
    match lookup key environ with Some e => parse k e | None => Ok (default_of k) end.
  (** env.py:31-84, when the module is imported; an exception is one of [import neps] *)
  Fixpoint load (environ : list (string * string)) (vars : list (string * sort)) : res (list (string * option fl)) :=
    match vars with
    | [] => Ok []
    | (key, k) :: vars' =>
        bind (get_env environ key k) (fun v => bind (load environ vars') (fun l => Ok ((key, v) :: l)))
    end.
End Env.

(** ** FileLocker.lock (filebased.py:458-487) *)

Section Wait.
  (** Times are multiples of 2^-1074 seconds.  [tick]: 0.001 s; [interval]: the poll interval;
      [free t]: whether nobody else holds the lock at time [t] (an attempt takes no time);
      [late i]: by how much the [i]-th sleep is longer than asked for. *)
  Variables (tick interval : Z) (free : Z -> bool) (late : nat -> Z).

  Inductive result : Type := Acquired (t : Z) | Failed (t : Z) | Waiting.

  (** portalocker: no timeout given means DEFAULT_TIMEOUT = 5 seconds (filebased.py:472) *)
  Definition effective (timeout : option fl) : fl := match timeout with None => fl_of_Z 5 | Some x => x end.

  (** portalocker's [_timeout_generator] and the attempts in [Lock.acquire], after the first
      one; [fuel]: out of it, the lock is still waited for (filebased.py:469-475) *)
  Fixpoint poll (fuel : nat) (timeout : fl) (start : Z) (i : nat) (t : Z) : result :=
    match fuel with
    | O => Waiting
    | S n =>
        if fl_ltb (FZ t) (fl_add (FZ start) timeout) then
          if free t then Acquired t
          else poll n timeout start (S i) (t + Z.max tick (Z.of_nat (S i) * interval - (t - start)) + late (S i))
        else Failed t
    end.

  (** filebased.py:458-487; [Failed]: a LockException is raised *)
  Definition lock (fuel : nat) (timeout : option fl) (fail_if_locked : bool) (start : Z) : result :=
    if free start then Acquired start
    else if fail_if_locked then Failed start
    else poll fuel (effective timeout) start 0 start.

  (** filebased.py:447-456 is_locked; [exists_]: whether there is a lock file; [None]: waiting *)
  Definition is_locked (fuel : nat) (exists_ : bool) (timeout : option fl) (now : Z) : option bool :=
    if exists_ then match lock fuel timeout true now with Acquired t => if Z.eqb t now then Some false else None | Failed t => if Z.eqb t now then Some true else None | Waiting => None end
    else Some false.
End Wait.
