(** Opening a result directory: neps/state/filebased.py:562-671
    create_or_load_filebased_neps_state, with the readers and writers of the four
    shared resources (filebased.py:260-424) and Synced.new_or_load
    (protocols.py:441-489), at the granularity of single file operations. *)
From Verif Require Import Py Fs_model.

(** neps/state/err_dump.py:17-35 SerializableTrialError *)
Record errent : Type := mkErr {
  e_trial : string; e_worker : string; e_type : string; e_text : string; e_tb : option string }.

(** neps/state/optimizer.py:10-44: BudgetInfo and OptimizationState *)
Record budget : Type := mkBudget {
  b_max_cost : option fl; b_used_cost : fl; b_max_evals : option Z; b_used_evals : Z }.
Record optstate : Type := mkOpt { o_budget : option budget; o_shared : dict }.

(** SeedSnapshot as stored (filebased.py:320-354): the python generator's numbers, the
    dictionary of the small fields, numpy's numbers.  The two torch files are left out. *)
Record seed : Type := mkSeed { s_py : list Z; s_info : dict; s_np : list Z }.

(** The result directory.  [d_exists]: the directory itself is there (the
    sub-directories carry no information). *)
Record fs : Type := mkFS {
  d_exists : bool;
  v_info : file nat; f_info : file dict;
  v_seed : file nat; f_py : file (list Z); f_seedinfo : file dict; f_np : file (list Z);
  v_err : file nat; f_err : file (list errent);
  v_opt : file nat; f_opt : file optstate }.

Definition no_fs : fs := mkFS false Absent Absent Absent Absent Absent Absent Absent Absent Absent Absent.

(** Single operations. *)
Inductive iop : Type :=
| IMkdir
| ITruncVInfo | IFillVInfo (n : nat) | ITruncInfo | IFillInfo (d : dict)
| ITruncVSeed | IFillVSeed (n : nat)
| ITruncPy | IFillPy (l : list Z) | ITruncSeedinfo | IFillSeedinfo (d : dict)
| ITruncNp | IFillNp (l : list Z)
| ITruncVErr | IFillVErr (n : nat) | ITruncErr | IFillErr (l : list errent)
| ITruncVOpt | IFillVOpt (n : nat) | ITruncOpt | IFillOpt (o : optstate).

Definition do_iop (x : fs) (o : iop) : fs :=
  let '(mkFS e vi fi vs py si np ve fe vo fo) := x in
  match o with
  | IMkdir => mkFS true vi fi vs py si np ve fe vo fo
  | ITruncVInfo => mkFS e Empty fi vs py si np ve fe vo fo
  | IFillVInfo n => mkFS e (Full n) fi vs py si np ve fe vo fo
  | ITruncInfo => mkFS e vi Empty vs py si np ve fe vo fo
  | IFillInfo d => mkFS e vi (Full d) vs py si np ve fe vo fo
  | ITruncVSeed => mkFS e vi fi Empty py si np ve fe vo fo
  | IFillVSeed n => mkFS e vi fi (Full n) py si np ve fe vo fo
  | ITruncPy => mkFS e vi fi vs Empty si np ve fe vo fo
  | IFillPy l => mkFS e vi fi vs (Full l) si np ve fe vo fo
  | ITruncSeedinfo => mkFS e vi fi vs py Empty np ve fe vo fo
  | IFillSeedinfo d => mkFS e vi fi vs py (Full d) np ve fe vo fo
  | ITruncNp => mkFS e vi fi vs py si Empty ve fe vo fo
  | IFillNp l => mkFS e vi fi vs py si (Full l) ve fe vo fo
  | ITruncVErr => mkFS e vi fi vs py si np Empty fe vo fo
  | IFillVErr n => mkFS e vi fi vs py si np (Full n) fe vo fo
  | ITruncErr => mkFS e vi fi vs py si np ve Empty vo fo
  | IFillErr l => mkFS e vi fi vs py si np ve (Full l) vo fo
  | ITruncVOpt => mkFS e vi fi vs py si np ve fe Empty fo
  | IFillVOpt n => mkFS e vi fi vs py si np ve fe (Full n) fo
  | ITruncOpt => mkFS e vi fi vs py si np ve fe vo Empty
  | IFillOpt o => mkFS e vi fi vs py si np ve fe vo (Full o)
  end.
Definition do_iops (x : fs) (os : list iop) : fs := fold_left do_iop os x.

(** filebased.py:364-367 ReaderWriterOptimizerInfo.read *)
Definition read_info (x : fs) : res dict := deserialize (f_info x).
(** filebased.py:274-318 ReaderWriterSeedSnapshot.read: np.fromfile of an empty file
    is an empty array; the files are read in the order python, numpy, info. *)
Definition fromfile (f : file (list Z)) : res (list Z) :=
  match f with Absent => Err FileNotFoundError | Empty => Ok [] | Full l => Ok l end.
Definition read_seed (x : fs) : res seed :=
  bind (fromfile (f_py x)) (fun p =>
  bind (fromfile (f_np x)) (fun n =>
  bind (deserialize (f_seedinfo x)) (fun i => Ok (mkSeed p i n)))).
(** filebased.py:411-417 ReaderWriterErrDump.read: no lines, no errors. *)
Definition read_err (x : fs) : res (list errent) :=
  match f_err x with Absent => Err FileNotFoundError | Empty => Ok [] | Full l => Ok l end.
(** filebased.py:386-396 ReaderWriterOptimizationState.read *)
Definition read_opt (x : fs) : res optstate := deserialize (f_opt x).

(** The writers (filebased.py:371-373, 320-354, 419-424, 398-402).  Simplification: the
    optimizer state and seed contain only plain data (they always do here:
    runtime.py:519-528, seed_snapshot.py); the info may contain anything. *)
Definition write_info (i : dict) : list iop * option exn :=
  if serialisable (VDict i) then ([ITruncInfo; IFillInfo (norm_dict i)], None)
  else ([ITruncInfo], Some TypeError).
Definition write_seed (s : seed) : list iop :=
  [ITruncPy; IFillPy (s_py s); ITruncSeedinfo; IFillSeedinfo (s_info s); ITruncNp; IFillNp (s_np s)].
Definition write_err (l : list errent) : list iop := [ITruncErr; IFillErr l].
Definition write_opt (o : optstate) : list iop := [ITruncOpt; IFillOpt o].

(** What a process that opens the directory brings along: the optimizer's description,
    the seed captured now, the initial optimizer state. *)
Record args : Type := mkArgs { a_info : dict; a_seed : seed; a_opt : optstate }.

(** The NePSState object's resources. *)
Record nstate : Type := mkNS { n_info : dict; n_seed : seed; n_err : list errent; n_opt : optstate }.

(** protocols.py:441-489 new_or_load.  [v]: version file, [new]: operations that write
    version and data, and the exception they end with; [mine]: the data given,
    [load]: the data read otherwise. *)
Definition new_or_load {A} (v : file nat) (new : list iop * option exn) (mine : A) (load : res A)
  : list iop * res A :=
  match ver_current v with
  | None => (fst new, match snd new with Some e => Err e | None => Ok mine end)
  | Some _ => ([], load)
  end.

Definition open_info (x : fs) (a : args) (n : nat) : list iop * res dict :=
  new_or_load (v_info x) ([ITruncVInfo; IFillVInfo n] ++ fst (write_info (a_info a)), snd (write_info (a_info a)))
    (a_info a) (read_info x).
Definition open_seed (x : fs) (a : args) (n : nat) : list iop * res seed :=
  new_or_load (v_seed x) ([ITruncVSeed; IFillVSeed n] ++ write_seed (a_seed a), None) (a_seed a) (read_seed x).
Definition open_err (x : fs) (n : nat) : list iop * res (list errent) :=
  new_or_load (v_err x) ([ITruncVErr; IFillVErr n] ++ write_err [], None) [] (read_err x).
Definition open_opt (x : fs) (a : args) (n : nat) : list iop * res optstate :=
  new_or_load (v_opt x) ([ITruncVOpt; IFillVOpt n] ++ write_opt (a_opt a), None) (a_opt a) (read_opt x).

(** One process alone: the operations in order, and the outcome. *)
Definition andthen {A B} (x : fs) (p : list iop * res A) (k : fs -> A -> list iop * res B)
  : list iop * res B :=
  match snd p with
  | Err e => (fst p, Err e)
  | Ok a => let q := k (do_iops x (fst p)) a in (fst p ++ fst q, snd q)
  end.

(** filebased.py:606-608: the unlocked check against the description on disk. *)
Definition check_info (x : fs) (a : args) : res unit :=
  bind (read_info x) (fun i =>
    if py_eqb (VDict i) (VDict (a_info a)) then Ok tt else Err NePSError).

Definition open_all (x : fs) (a : args) (n : nat) : list iop * res nstate :=
  andthen x ([IMkdir], Ok tt) (fun x1 _ =>
  andthen x1 ([], if d_exists x then check_info x1 a else Ok tt) (fun x2 _ =>
  andthen x2 (open_info x2 a n) (fun x3 i =>
  andthen x3 (open_seed x3 a n) (fun x4 s =>
  andthen x4 (open_err x4 n) (fun x5 e =>
  andthen x5 (open_opt x5 a n) (fun x6 o =>
  ([], Ok (mkNS i s e o)))))))).

Definition opened (x : fs) (a : args) (n : nat) : fs := do_iops x (fst (open_all x a n)).
Definition outcome (x : fs) (a : args) (n : nat) : res nstate := snd (open_all x a n).
(** The process is killed after [k] file operations. *)
Definition open_killed (x : fs) (a : args) (n : nat) (k : nat) : fs :=
  do_iops x (firstn k (fst (open_all x a n))).

(** filebased.py:490-559 load_filebased_neps_state: load only *)
Definition load_res {A} (v : file nat) (r : res A) : res A :=
  match ver_current v with None => Err VersionedResourceDoesNotExistsError | Some _ => r end.
Definition load_state (x : fs) : res nstate :=
  if d_exists x then
    bind (load_res (v_info x) (read_info x)) (fun i =>
    bind (load_res (v_seed x) (read_seed x)) (fun s =>
    bind (load_res (v_err x) (read_err x)) (fun e =>
    bind (load_res (v_opt x) (read_opt x)) (fun o => Ok (mkNS i s e o)))))
  else Err FileNotFoundError.

(** ** Several processes opening at the same time.
    A process goes through these points.  The sections under the info lock are split
    into their file operations because the check of filebased.py:607 reads without
    lock; the other sections are only ever entered under their locks and are one step. *)
Inductive pc : Type :=
| PCheck                                   (* is_new = not directory.exists() *)
| PMkdir (is_new : bool)
| PRead                                    (* unlocked check *)
| PInfo                                    (* waiting for the info lock *)
| PInfoW (rest : list iop)                 (* holds the info lock, writing *)
| PSeed (i : dict)
| PErrs (i : dict) (s : seed)
| POpt (i : dict) (s : seed) (e : list errent)
| PDone (r : nstate)
| PFail (e : exn).

Record cstate : Type := mkC { c_fs : fs; c_pc : nat -> pc; c_lock : option nat; c_next : nat }.

Definition cstep (a : nat -> args) (s : cstate) (w : nat) : cstate :=
  let x := c_fs s in
  let goto p := mkC x (upd (c_pc s) w p) (c_lock s) (c_next s) in
  match c_pc s w with
  | PCheck => goto (PMkdir (negb (d_exists x)))
  | PMkdir b => mkC (do_iop x IMkdir) (upd (c_pc s) w (if b then PInfo else PRead)) (c_lock s) (c_next s)
  | PRead => goto (match check_info x (a w) with Ok _ => PInfo | Err e => PFail e end)
  | PInfo =>
      match c_lock s with
      | Some _ => s
      | None =>
          match ver_current (v_info x) with
          | Some _ => goto (match read_info x with Ok i => PSeed i | Err e => PFail e end)
          | None =>
              match snd (write_info (a_info (a w))) with
              | Some e => goto (PFail e)   (* simplification: leaves no trace; only plain infos are used below *)
              | None => mkC x (upd (c_pc s) w (PInfoW ([ITruncVInfo; IFillVInfo (c_next s)] ++ fst (write_info (a_info (a w))))))
                          (Some w) (S (c_next s))
              end
          end
      end
  | PInfoW [] => mkC x (upd (c_pc s) w (PSeed (a_info (a w)))) None (c_next s)
  | PInfoW (o :: rest) => mkC (do_iop x o) (upd (c_pc s) w (PInfoW rest)) (c_lock s) (c_next s)
  | PSeed i =>
      let p := open_seed x (a w) (c_next s) in
      mkC (do_iops x (fst p)) (upd (c_pc s) w (match snd p with Ok v => PErrs i v | Err e => PFail e end)) (c_lock s) (S (c_next s))
  | PErrs i v =>
      let p := open_err x (c_next s) in
      mkC (do_iops x (fst p)) (upd (c_pc s) w (match snd p with Ok e => POpt i v e | Err e => PFail e end)) (c_lock s) (S (c_next s))
  | POpt i v e =>
      let p := open_opt x (a w) (c_next s) in
      mkC (do_iops x (fst p)) (upd (c_pc s) w (match snd p with Ok o => PDone (mkNS i v e o) | Err e => PFail e end)) (c_lock s) (S (c_next s))
  | PDone _ | PFail _ => s
  end.

Definition c_init : cstate := mkC no_fs (fun _ => PCheck) None 0.
Definition crun (a : nat -> args) (s : cstate) (ws : list nat) : cstate := fold_left (cstep a) ws s.
