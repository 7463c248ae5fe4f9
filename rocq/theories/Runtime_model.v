(** Several workers running neps/runtime.py:123-488 DefaultWorker on one NePSState
    (neps/state/neps_state.py).  Every section of code that holds a file lock is one
    atomic step of the worker executing it; between two such sections any other
    workers may act.  The stored trials are one cell (version, trial) each
    (Store_model / Repo_model describe how the cells are kept on disk, crashes in the
    middle of a lock section are in Fs_model, Repo_model and Init_model).

    Simplifications.  Trial ids are the numbers 0, 1, 2, ... in order of creation
    ([tid] gives the string).  Loading a trial that is not in the cache and the
    following sync of it are one step (the loaded value is not used).  sample_trial
    reads all trials in one step (it holds the optimizer lock, so no trial is added
    meanwhile, but a report may be stored half way).  Trials with a previous trial and
    callbacks of _set_global_trial are left out.  An exception object counts as true
    in a condition. *)
From Verif Require Import Py Trial_model Eval_model Init_model.

(** neps/state/settings.py:35-53 OnErrorPossibilities *)
Inductive on_error_t : Type :=
| RAISE_WORKER_ERROR | STOP_WORKER_ERROR | RAISE_ANY_ERROR | STOP_ANY_ERROR | IGNORE.

(** neps/state/settings.py:58-171 WorkerSettings *)
Record worker_settings : Type := mkSettings {
  on_error : on_error_t;
  drv : default_report_values;
  max_evaluations_total : option Z;
  include_in_progress : bool;
  max_cost_total : option fl;
  max_evaluation_time_total : option fl;
  max_evaluations_for_worker : option Z;
  max_cost_for_worker : option fl;
  max_evaluation_time_for_worker : option fl;
  max_wallclock_time_for_worker : option fl }.

(** The outcome of (part of) the check: stop with a message, raise, or go on. *)
Inductive verdict : Type := VStop | VRaise (e : exn) | VGo.

(** runtime.py:208-213 the four modes in which an own error matters *)
Definition own_error_matters (o : on_error_t) : bool :=
  match o with IGNORE => false | _ => true end.
Definition raising (o : on_error_t) : bool :=
  match o with RAISE_WORKER_ERROR | RAISE_ANY_ERROR => true | _ => false end.
Definition any_error (o : on_error_t) : bool :=
  match o with RAISE_ANY_ERROR | STOP_ANY_ERROR => true | _ => false end.

(** [x is not None and v >= x] for counts and for floats *)
Definition reached_Z (lim : option Z) (v : Z) : bool :=
  match lim with Some n => Z.geb v n | None => false end.
Definition reached_fl (lim : option fl) (v : fl) : bool :=
  match lim with Some n => fl_geb v n | None => false end.

(** runtime.py:208-280 first part of _check_if_should_stop: what concerns this worker
    only.  [elapsed] is [time.monotonic() - time_monotonic_start]. *)
Definition check_local (st : worker_settings) (err : option string) (count : Z)
  (cost time elapsed : fl) : verdict :=
  if match err with Some _ => own_error_matters (on_error st) | None => false end
  then if raising (on_error st) then VRaise WorkerRaiseError else VStop
  else if reached_Z (max_evaluations_for_worker st) count then VStop
  else if reached_fl (max_cost_for_worker st) cost then VStop
  else if reached_fl (max_wallclock_time_for_worker st) elapsed then VStop
  else if reached_fl (max_evaluation_time_for_worker st) time then VStop
  else VGo.

(** runtime.py:282-307 the shared errors (in the ANY modes) *)
Definition check_errors (st : worker_settings) (errs : list errent) : verdict :=
  if any_error (on_error st) then
    match errs with
    | [] => VGo
    | _ :: _ => match on_error st with
                | RAISE_ANY_ERROR => VRaise WorkerRaiseError
                | _ => VStop
                end
    end
  else VGo.

(** runtime.py:309-315 *)
Definition no_total_limit (st : worker_settings) : bool :=
  match max_evaluations_total st, max_cost_total st, max_evaluation_time_total st with
  | None, None, None => true
  | _, _, _ => false
  end.

(** runtime.py:324-333 which trials count as evaluations *)
Definition counted (in_progress : bool) (t : trial) : bool :=
  match t_report t with
  | Some _ => true
  | None => in_progress && (tstate_eqb (t_state t) EVALUATING || tstate_eqb (t_state t) SUBMITTED)
  end.
Definition count_trials (in_progress : bool) (ts : list trial) : Z :=
  Z.of_nat (List.length (filter (counted in_progress) ts)).

(** runtime.py:344-348 and 357-362: the summed costs and durations *)
Definition cost_of (t : trial) : list fl :=
  match t_report t with
  | Some r => match r_cost r with Some c => [c] | None => [] end
  | None => []
  end.
Definition duration_of (t : trial) : list fl :=
  match t_report t with
  | Some r => match r_evaluation_duration r with Some c => [c] | None => [] end
  | None => []
  end.

(** runtime.py:322-366 the totals over all trials *)
Definition check_totals (st : worker_settings) (ts : list trial) : verdict :=
  if reached_Z (max_evaluations_total st) (count_trials (include_in_progress st) ts) then VStop
  else if reached_fl (max_cost_total st) (fl_sum (flat_map cost_of ts)) then VStop
  else if reached_fl (max_evaluation_time_total st) (fl_sum (flat_map duration_of ts)) then VStop
  else VGo.

(** runtime.py:196-366 _check_if_should_stop when nobody else interferes *)
Definition check_if_should_stop (st : worker_settings) (err : option string) (count : Z)
  (cost time elapsed : fl) (errs : list errent) (ts : list trial) : verdict :=
  match check_local st err count cost time elapsed with
  | VGo =>
      match check_errors st errs with
      | VGo => if no_total_limit st then VGo else check_totals st ts
      | v => v
      end
  | v => v
  end.

(** One stored trial, and a worker's cached object of it. *)
Record cell : Type := mkCell { c_ver : nat; c_trial : trial }.
Record handle : Type := mkH { h_ver : nat; h_trial : trial }.

(** Where a worker is in [run]. *)
Inductive wpc : Type :=
| PStart                                             (* top of the loop, runtime.py:382 *)
| PErrs                                              (* reading the shared errors, 288 *)
| PSweep (todo : list nat) (seen : list trial)       (* get_all_trials, 322 *)
| PGet                                               (* get_next_pending_trial, 178 *)
| PPend (todo : list nat) (seen : list (nat * fl))   (* pending(), filebased.py:205-209 *)
| PRefetch (i : nat)                                 (* synced(), neps_state.py:211 *)
| PSample                                            (* sample_trial, runtime.py:183 *)
| PClaim (i : nat)                                   (* set_evaluating and put, 415-420 *)
| PEval (i : nat)                                    (* evaluate_trial, 447-456 *)
| PReport (i : nat) (r : report)                     (* neps_state.py:162-167 *)
| PAccount (i : nat) (r : report)                    (* neps_state.py:169-177 *)
| PErrDump (i : nat) (r : report)                    (* neps_state.py:179-189 *)
| PStopped                                           (* returned *)
| PRaised (e : exn).                                 (* ended by an exception *)

(** A worker process.  [w_nset]: the local n_failed_set_trial_state, unbound at first
    (runtime.py:421); [w_global]: _CURRENTLY_RUNNING_TRIAL_IN_PROCESS is set. *)
Record worker : Type := mkWorker {
  w_pc : wpc;
  w_cache : nat -> option handle;
  w_count : Z;
  w_cost : fl;
  w_time : fl;
  w_err : option string;
  w_nget : Z;
  w_nset : option Z;
  w_global : bool }.

(** The whole system; [R]: states of the random number generators. *)
Record sys (R : Type) : Type := mkSys {
  cells : list cell;
  s_budget : option budget;
  s_errs : list errent;
  s_rng : R;
  s_next : nat;
  s_work : nat -> worker }.
Arguments mkSys {R}. Arguments cells {R}. Arguments s_budget {R}. Arguments s_errs {R}.
Arguments s_rng {R}. Arguments s_next {R}. Arguments s_work {R}.

(** What the outside world contributes to one step: clocks, what the user's function
    does, the order in which the directory is listed, the process's own random state. *)
Record input (R : Type) : Type := mkIn {
  in_elapsed : fl;
  in_time : fl;
  in_duration : fl;
  in_out : fn_outcome;
  in_errtype : string;
  in_tb : string;
  in_order : list nat;
  in_rng : R }.
Arguments mkIn {R}. Arguments in_elapsed {R}. Arguments in_time {R}. Arguments in_duration {R}.
Arguments in_out {R}. Arguments in_errtype {R}. Arguments in_tb {R}. Arguments in_order {R}.
Arguments in_rng {R}.

(** runtime.py:46-47 *)
Definition N_FAILED_GET : Z := 0.
Definition N_FAILED_SET : Z := 10.

(** filebased.py:94-98 all_trial_ids returns a set, iterated in any order: [ord] if it
    is an order of the [n] ids at all. *)
Definition listing (n : nat) (ord : list nat) : list nat :=
  if Nat.eqb (List.length ord) n && forallb (fun k => existsb (Nat.eqb k) ord) (seq 0 n)
  then ord else seq 0 n.

(** filebased.py:210 and neps_state.py:215: the first of the ids sorted by time *)
Fixpoint oldest (l : list (nat * fl)) : option (nat * fl) :=
  match l with
  | [] => None
  | (i, t) :: l' =>
      match oldest l' with
      | None => Some (i, t)
      | Some (j, u) => if fl_ltb u t then Some (j, u) else Some (i, t)
      end
  end.

Definition set_pc (w : worker) (p : wpc) : worker :=
  mkWorker p (w_cache w) (w_count w) (w_cost w) (w_time w) (w_err w) (w_nget w) (w_nset w) (w_global w).
Definition set_handle (w : worker) (i : nat) (h : handle) : worker :=
  mkWorker (w_pc w) (upd (w_cache w) i (Some h)) (w_count w) (w_cost w) (w_time w) (w_err w)
    (w_nget w) (w_nset w) (w_global w).

(** A worker at the beginning of run() (runtime.py:368-381); its counters start at
    zero (runtime.py:138-153). *)
Definition fresh_worker (global : bool) : worker :=
  mkWorker PStart (fun _ => None) 0 (FZ 0) (FZ 0) None 0 None global.
Definition new_worker : worker := fresh_worker false.

Section Run.
Context {R : Type}.
Implicit Types s : sys R.
Variable pyfloat : pyval -> res fl.
Variable tid : nat -> string.                         (* names of trials *)
Variable wname : nat -> string.                       (* names of workers *)
Variable conf : nat -> worker_settings.               (* settings of each worker *)
(** optimizer.ask, started with the global random state [r]: a configuration and the
    random state left behind, or an exception. *)
Variable ask : R -> list trial -> res (dict * R).

(** protocols.py:258-269 sync of a cached trial object (load when there is none) *)
Definition sync_handle (h : option handle) (c : cell) : handle :=
  match h with
  | Some h => if Nat.eqb (h_ver h) (c_ver c) then h else mkH (c_ver c) (c_trial c)
  | None => mkH (c_ver c) (c_trial c)
  end.

Definition with_worker s (k : nat) (w : worker) : sys R :=
  mkSys (cells s) (s_budget s) (s_errs s) (s_rng s) (s_next s) (upd (s_work s) k w).

(** sync trial [i] in worker [w]'s cache *)
Definition sync_one s (w : worker) (i : nat) : option (worker * trial) :=
  match nth_error (cells s) i with
  | Some c => let h := sync_handle (w_cache w i) c in Some (set_handle w i h, h_trial h)
  | None => None
  end.

Fixpoint sync_all s (w : worker) (ids : list nat) : worker * list trial :=
  match ids with
  | [] => (w, [])
  | i :: ids' =>
      match sync_one s w i with
      | Some (w1, t) => let '(w2, ts) := sync_all s w1 ids' in (w2, t :: ts)
      | None => sync_all s w ids'
      end
  end.

Fixpoint set_nth {A} (l : list A) (i : nat) (x : A) : list A :=
  match l, i with
  | [], _ => []
  | _ :: l', O => x :: l'
  | y :: l', S i' => y :: set_nth l' i' x
  end.

(** protocols.py:271-292 put of trial [t] through worker [k]'s cached object: [t] is
    the cached (mutated) object itself; [Err] when the stored version moved on. *)
Definition put_trial s (k : nat) (w : worker) (i : nat) (t : trial) : sys R * worker * bool :=
  match w_cache w i, nth_error (cells s) i with
  | Some h, Some c =>
      if Nat.eqb (h_ver h) (c_ver c)
      then (mkSys (set_nth (cells s) i (mkCell (s_next s) t)) (s_budget s) (s_errs s) (s_rng s)
              (S (s_next s)) (s_work s),
            set_handle w i (mkH (s_next s) t), true)
      else (s, set_handle w i (mkH (h_ver h) t), false)
  | _, _ => (s, w, false)
  end.

(** what happens after the shared errors were found empty: runtime.py:309-322 *)
Definition enter_totals s (k : nat) (w : worker) (x : input R) : sys R :=
  if no_total_limit (conf k) then with_worker s k (set_pc w PGet)
  else with_worker s k (set_pc w (PSweep (listing (List.length (cells s)) (in_order x)) [])).

Definition apply_verdict s (k : nat) (w : worker) (v : verdict) (go : sys R) : sys R :=
  match v with
  | VStop => with_worker s k (set_pc w PStopped)
  | VRaise e => with_worker s k (set_pc w (PRaised e))
  | VGo => go
  end.

(** runtime.py:395-412: an exception while getting the next trial *)
Definition get_failed s (k : nat) (w : worker) : sys R :=
  let n := (w_nget w + 1)%Z in
  let w' := mkWorker PStart (w_cache w) (w_count w) (w_cost w) (w_time w) (w_err w) n
              (w_nset w) (w_global w) in
  if Z.geb n N_FAILED_GET
  then with_worker s k (set_pc w' (PRaised WorkerFailedToGetPendingTrialsError))
  else with_worker s k w'.

(** runtime.py:394 success: the counter of failures is reset, go on to claiming *)
Definition got (w : worker) (i : nat) : worker :=
  mkWorker (PClaim i) (w_cache w) (w_count w) (w_cost w) (w_time w) (w_err w) 0
    (w_nset w) (w_global w).

(** neps/state/neps_state.py:68-144 sample_trial.  The optimizer runs with the stored
    random state, whatever the state [in_rng] of the process was.  [complete = false]:
    the process is killed after put_new and before put_seed_state (line 139). *)
Definition sample_step (complete : bool) s (k : nat) (w : worker) (x : input R) : sys R :=
  let '(w1, ts) := sync_all s w (listing (List.length (cells s)) (in_order x)) in
  match ask (s_rng s) ts with
  | Err _ => if complete then get_failed s k w1 else with_worker s k (set_pc w1 PStopped)
  | Ok (config, r') =>
      let i := List.length (cells s) in
      let t := trial_new (tid i) config "" None None (in_time x) (wname k) in
      let s1 := mkSys (cells s ++ [mkCell (s_next s) t]) (s_budget s) (s_errs s)
                  (if complete then r' else s_rng s) (S (s_next s)) (s_work s) in
      let w2 := set_handle w1 i (mkH (s_next s) t) in
      with_worker s1 k (if complete then got w2 i else set_pc w2 PStopped)
  end.

(** runtime.py:415-441: mark as evaluating; afterwards look at the counter *)
Definition claim_step s (k : nat) (w : worker) (i : nat) (x : input R) : sys R :=
  match w_cache w i with
  | None => with_worker s k (set_pc w (PRaised TrialNotFoundError))
  | Some h =>
      let t := set_evaluating (h_trial h) (in_time x) (wname k) in
      match put_trial s k w i t with
      | (s1, w1, true) =>
          with_worker s1 k
            (mkWorker (PEval i) (w_cache w1) (w_count w1) (w_cost w1) (w_time w1) (w_err w1)
               (w_nget w1) (Some 0%Z) (w_global w1))
      | (s1, w1, false) =>
          match w_nset w1 with
          | None => with_worker s1 k (set_pc w1 (PRaised UnboundLocalError))
          | Some n =>
              let n' := (n + 1)%Z in
              with_worker s1 k
                (mkWorker (if Z.geb n' N_FAILED_SET
                           then PRaised WorkerFailedToGetPendingTrialsError else PStart)
                   (w_cache w1) (w_count w1) (w_cost w1) (w_time w1) (w_err w1)
                   (w_nget w1) (Some n') (w_global w1))
          end
      end
  end.

(** runtime.py:444-474: _set_global_trial (100-116), evaluate_trial, the worker's
    counters.  When parsing the result raises, the exception ends the worker and the
    global stays set. *)
Definition eval_step s (k : nat) (w : worker) (i : nat) (x : input R) : sys R :=
  match w_cache w i with
  | None => with_worker s k (set_pc w (PRaised TrialNotFoundError))
  | Some h =>
      if w_global w then with_worker s k (set_pc w (PRaised NePSError))
      else match evaluate_trial pyfloat (h_trial h) (in_out x) (in_tb x) (drv (conf k))
                   (in_duration x) (in_time x) with
      | Err e =>
          with_worker s k
            (mkWorker (PRaised e) (w_cache w) (w_count w) (w_cost w) (w_time w) (w_err w)
               (w_nget w) (w_nset w) true)
      | Ok (t, r) =>
          with_worker s k
            (mkWorker (PReport i r) (upd (w_cache w) i (Some (mkH (h_ver h) t)))
               (w_count w + 1)
               (match r_cost r with Some c => fl_add (w_cost w) c | None => w_cost w end)
               (fl_add (w_time w) (in_duration x))
               (match r_err r with Some e => Some e | None => w_err w end)
               (w_nget w) (w_nset w) false)
      end
  end.

(** neps_state.py:162-167: attach the report and store the trial; a version mismatch
    is not caught anywhere (runtime.py:476-480). *)
Definition report_step s (k : nat) (w : worker) (i : nat) (r : report) : sys R :=
  match w_cache w i with
  | None => with_worker s k (set_pc w (PRaised TrialNotFoundError))
  | Some h =>
      match put_trial s k w i (attach_report (h_trial h) r) with
      | (s1, w1, true) => with_worker s1 k (set_pc w1 (PAccount i r))
      | (s1, w1, false) => with_worker s1 k (set_pc w1 (PRaised VersionMismatchError))
      end
  end.

(** neps_state.py:169-177 *)
Definition charge (b : option budget) (r : report) : option budget :=
  match b with
  | Some b =>
      match r_cost r with
      | Some c => Some (mkBudget (b_max_cost b) (fl_add (b_used_cost b) c) (b_max_evals b)
                          (b_used_evals b))
      | None => Some b
      end
  | None => None
  end.
Definition account_step s (k : nat) (w : worker) (i : nat) (r : report) : sys R :=
  let s1 := mkSys (cells s) (charge (s_budget s) r) (s_errs s) (s_rng s) (s_next s) (s_work s) in
  with_worker s1 k (set_pc w (match r_err r with Some _ => PErrDump i r | None => PStart end)).

(** neps_state.py:179-189 *)
Definition err_entry (k i : nat) (r : report) (errtype : string) : errent :=
  mkErr (tid i) (wname k) errtype (str_of_err (r_err r)) (r_tb r).
Definition errdump_step s (k : nat) (w : worker) (i : nat) (r : report) (x : input R) : sys R :=
  let s1 := mkSys (cells s) (s_budget s) (s_errs s ++ [err_entry k i r (in_errtype x)])
              (s_rng s) (s_next s) (s_work s) in
  with_worker s1 k (set_pc w PStart).

(** One step of worker [k]. *)
Definition step s (k : nat) (x : input R) : sys R :=
  let w := s_work s k in
  match w_pc w with
  | PStart =>
      apply_verdict s k w
        (check_local (conf k) (w_err w) (w_count w) (w_cost w) (w_time w) (in_elapsed x))
        (if any_error (on_error (conf k)) then with_worker s k (set_pc w PErrs)
         else enter_totals s k w x)
  | PErrs => apply_verdict s k w (check_errors (conf k) (s_errs s)) (enter_totals s k w x)
  | PSweep (i :: todo) seen =>
      match sync_one s w i with
      | Some (w', t) => with_worker s k (set_pc w' (PSweep todo (seen ++ [t])))
      | None => with_worker s k (set_pc w (PRaised VersionedResourceRemovedError))
      end
  | PSweep [] seen =>
      apply_verdict s k w (check_totals (conf k) seen) (with_worker s k (set_pc w PGet))
  | PGet =>
      with_worker s k (set_pc w (PPend (listing (List.length (cells s)) (in_order x)) []))
  | PPend (i :: todo) seen =>
      match sync_one s w i with
      | Some (w', t) =>
          with_worker s k (set_pc w' (PPend todo
            (if tstate_eqb (t_state t) PENDING
             then seen ++ [(i, m_time_sampled (t_meta t))] else seen)))
      | None => get_failed s k w
      end
  | PPend [] seen =>
      match oldest seen with
      | Some (i, _) => with_worker s k (set_pc w (PRefetch i))
      | None => with_worker s k (set_pc w PSample)
      end
  | PRefetch i =>
      match sync_one s w i with
      | Some (w', _) => with_worker s k (got w' i)
      | None => get_failed s k w
      end
  | PSample => sample_step true s k w x
  | PClaim i => claim_step s k w i x
  | PEval i => eval_step s k w i x
  | PReport i r => report_step s k w i r
  | PAccount i r => account_step s k w i r
  | PErrDump i r => errdump_step s k w i r x
  | PStopped | PRaised _ => s
  end.

(** Schedules: which worker moves, and its input.  [KilledSampling]: a worker about to
    sample is killed between storing the new trial and storing the random state; it
    does nothing afterwards.  A worker killed between two steps is simply never
    scheduled again.  [Restart]: run() is called anew for worker [k], in the same process
    (whose global running trial stays as it was) or in a new one. *)
Inductive event : Type :=
| Step (k : nat) (x : input R)
| KilledSampling (k : nat) (x : input R)
| Restart (k : nat) (same_process : bool).

Definition actor (e : event) : nat :=
  match e with Step k _ | KilledSampling k _ | Restart k _ => k end.

Definition do_event s (e : event) : sys R :=
  match e with
  | Step k x => step s k x
  | KilledSampling k x =>
      match w_pc (s_work s k) with
      | PSample => sample_step false s k (s_work s k) x
      | _ => s
      end
  | Restart k same => with_worker s k (fresh_worker (same && w_global (s_work s k)))
  end.

Definition run s (es : list event) : sys R := fold_left do_event es s.

(** The state found by workers that start on stored trials [cs] (all versions below
    [n]) with nothing cached. *)
Definition start (cs : list cell) (b : option budget) (errs : list errent) (r : R) (n : nat) : sys R :=
  mkSys cs b errs r n (fun _ => new_worker).

End Run.
Arguments Step {R}. Arguments KilledSampling {R}. Arguments Restart {R}. Arguments actor {R}.
Arguments event : clear implicits.
