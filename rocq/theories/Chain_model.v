(** Chains of continued trials, what a process remembers about them, and checkpoints:
    neps/utils/common.py:20-181 (load_checkpoint, save_checkpoint,
    load_lightning_checkpoint, get_initial_directory), neps/runtime.py:57-116 (the
    globals of the process), and of sample_trial (neps_state.py:118-142), put_new
    (filebased.py:169-178) and get_trial_by_id what concerns identifiers and places.

    Simplified: paths are absolute and POSIX, ".." and links are not followed; what
    torch.save wrote torch.load reads back unchanged (weights_only=True); a checkpoint's
    path is never a directory; one step at a time (the locks of the store are in
    Store_model.v). *)
From Coq Require Import Ascii String.
From Verif Require Import Py Trial_model Eval_model.
Local Open Scope string_scope.
Local Open Scope list_scope.

(** ** Paths (pathlib.PurePosixPath) *)
Definition path := list string.

(** [str.split(c)] *)
Fixpoint split_on (c : ascii) (s : string) : list string :=
  match s with
  | EmptyString => [""]
  | String a s' =>
      if Ascii.eqb a c then "" :: split_on c s'
      else match split_on c s' with w :: ws => String a w :: ws | [] => [String a ""] end
  end.

(** [Path(s)]: empty components and "." are dropped *)
Definition to_path (s : string) : path :=
  filter (fun w => negb (String.eqb w "" || String.eqb w ".")) (split_on "/"%char s).

(** [path / name]: an absolute name replaces the path *)
Definition join (p : path) (name : string) : path :=
  match name with
  | String a _ => if Ascii.eqb a "/"%char then to_path name else p ++ to_path name
  | EmptyString => p
  end.

(** [path.name] *)
Definition path_name (p : path) : string := last p "".

(** [s.split("_", maxsplit=1)[-1]] (common.py:162): the text after the first "_" *)
Fixpoint after_underscore (s : string) : option string :=
  match s with
  | EmptyString => None
  | String a s' => if Ascii.eqb a "_"%char then Some s' else after_underscore s'
  end.
Definition config_id_of (name : string) : string :=
  match after_underscore name with Some r => r | None => name end.

(** [name.rfind(".")]: the texts before and after the last "." *)
Fixpoint rsplit_dot (s : string) : option (string * string) :=
  match s with
  | EmptyString => None
  | String a s' =>
      match rsplit_dot s' with
      | Some (b, e) => Some (String a b, e)
      | None => if Ascii.eqb a "."%char then Some ("", s') else None
      end
  end.
(** The name without [path.suffix]; a "." at either end is no suffix *)
Definition without_suffix (name : string) : string :=
  match rsplit_dot name with
  | Some (b, e) => if String.eqb b "" || String.eqb e "" then name else b
  | None => name
  end.
(** [path.with_suffix(suffix)]: ValueError if there is no name *)
Definition with_suffix (p : path) (suffix : string) : res path :=
  match p with
  | [] => Err ValueError
  | _ => Ok (removelast p ++ [(without_suffix (path_name p) ++ suffix)%string])
  end.

Definition path_eqb : path -> path -> bool := list_eqb String.eqb.

(** ** The process and the disk *)
(** The trials of a directory of configurations, newest first *)
Definition repo := list trial.
Record proc : Type := mkProc {
  p_repos : list (string * repo);          (* on disk: configuration directories (resolved) *)
  p_dirs : list path;                      (* on disk: directories *)
  p_files : list (path * dict);            (* on disk: checkpoint files and their contents *)
  p_state : option string;                 (* runtime.py:58 _WORKER_NEPS_STATE *)
  p_current : option trial;                (* runtime.py:57 _CURRENTLY_RUNNING_TRIAL_IN_PROCESS *)
  p_inside : bool;                         (* whether the process is in the body at runtime.py:448-455 *)
  p_cache : list (string * path) }.        (* common.py:143 _INTIAL_DIRECTORY_CACHE *)

Definition repo_of (p : proc) (root : string) : repo :=
  match lookup root (p_repos p) with Some r => r | None => [] end.

(** neps_state.py:64-66 get_trial_by_id, filebased.py:126-144 get_by_id *)
Definition get_trial_by_id (r : repo) (id : string) : res trial :=
  match find (fun t => String.eqb (t_id t) id) r with
  | Some t => Ok t
  | None => Err TrialNotFoundError
  end.

(** runtime.py:62-72 get_workers_neps_state *)
Definition get_workers_neps_state (p : proc) : res string :=
  match p_state p with Some root => Ok root | None => Err RuntimeError end.
(** runtime.py:80-89 get_in_progress_trial *)
Definition get_in_progress_trial (p : proc) : res trial :=
  match p_current p with Some t => Ok t | None => Err RuntimeError end.

(** neps_state.py:118-142 (the place of the previous trial; the new trial) with
    filebased.py:169-178 (refusal of existing ids; the location): the new trial *)
Definition new_trial (root : string) (r : repo) (id : string) (prev : option string)
  (config : dict) (time : fl) (worker : string) : res trial :=
  bind (match prev with
        | Some q => match get_trial_by_id r q with
                    | Ok u => Ok (Some (m_location (t_meta u)))
                    | Err _ => Err ValueError
                    end
        | None => Ok None
        end) (fun prev_loc =>
  match get_trial_by_id r id with
  | Ok _ => Err TrialAlreadyExistsError
  | Err _ => Ok (trial_new id config (root ++ "/config_" ++ id)%string prev prev_loc time worker)
  end).

(** The changes trials go through (trial.py:198-268, neps_state.py:166) *)
Inductive update : Type :=
| USubmitted (time : fl)
| UEvaluating (time : fl) (worker : string)
| UComplete (as_ : reported) (time_end : fl) (loss cost : option fl) (lc : option (list fl))
    (err tb : option string) (extra : option dict) (duration : option fl)
| UCorrupted
| UReset
| UReport (r : report).
Definition apply_update (u : update) (t : trial) : trial :=
  match u with
  | USubmitted time => set_submitted t time
  | UEvaluating time worker => set_evaluating t time worker
  | UComplete as_ time_end loss cost lc err tb extra duration =>
      fst (set_complete t as_ time_end loss cost lc err tb extra duration)
  | UCorrupted => set_corrupted t
  | UReset => reset t
  | UReport r => attach_report t r
  end.

(** ** The initial directory (common.py:149-181) *)
(** common.py:171-172: the loop; OutOfFuel stands for an endless loop *)
Fixpoint walk (fuel : nat) (r : repo) (t : trial) : res trial :=
  match m_previous_trial_id (t_meta t) with
  | None => Ok t
  | Some q =>
      match fuel with
      | 0 => Err OutOfFuel
      | S f => bind (get_trial_by_id r q) (walk f r)
      end
  end.

(** common.py:160-165: the trial asked for *)
Definition asked_trial (p : proc) (root : string) (pipeline_directory : option string) : res trial :=
  match pipeline_directory with
  | Some d => get_trial_by_id (repo_of p root) (config_id_of (path_name (to_path d)))
  | None => get_in_progress_trial p
  end.

(** common.py:149-181: the directory and the new cache *)
Definition get_initial_directory (p : proc) (pipeline_directory : option string) :
  res (path * list (string * path)) :=
  bind (get_workers_neps_state p) (fun root =>
  bind (asked_trial p root pipeline_directory) (fun t =>
  match lookup (t_id t) (p_cache p) with
  | Some d => Ok (d, p_cache p)
  | None =>
      bind (walk (List.length (repo_of p root)) (repo_of p root) t) (fun u =>
      let d := to_path (m_location (t_meta u)) in
      Ok (d, set_key (t_id u) d (p_cache p)))
  end)).

(** ** Checkpoints (common.py:20-140) *)
Definition find_file (files : list (path * dict)) (f : path) : option dict :=
  option_map snd (find (fun x => path_eqb (fst x) f) files).

(** A file is written: what it held is replaced *)
Definition put_file (files : list (path * dict)) (f : path) (d : dict) : list (path * dict) :=
  (f, d) :: filter (fun x => negb (path_eqb (fst x) f)) files.

(** common.py:44-45, 82-83 *)
Definition checkpoint_path (directory : path) (name : string) : res path :=
  with_suffix (join directory name) ".pth".

(** common.py:85-93: the dictionary saved; the values of the user come last *)
Definition saved_dict (values : option dict) (model optimizer : option pyval) : dict :=
  let d1 := match model with Some s => set_key "model_state_dict" s [] | None => [] end in
  let d2 := match optimizer with Some s => set_key "optimizer_state_dict" s d1 | None => d1 end in
  match values with
  | Some v => fold_left (fun d kv => set_key (fst kv) (snd kv) d) v d2
  | None => d2
  end.

(** common.py:78-80 *)
Definition save_directory (p : proc) (directory : option string) : res path :=
  match directory with
  | Some s => Ok (to_path s)
  | None => bind (get_in_progress_trial p) (fun t => Ok (to_path (m_location (t_meta t))))
  end.
(** common.py:63-96 save_checkpoint: the files afterwards.  [torch.save] into a
    directory that does not exist is a RuntimeError. *)
Definition save_checkpoint (p : proc) (directory : option string) (name : string)
  (values : option dict) (model optimizer : option pyval) : res (list (path * dict)) :=
  bind (save_directory p directory) (fun dir =>
  bind (checkpoint_path dir name) (fun f =>
  if existsb (path_eqb (removelast f)) (p_dirs p)
  then Ok (put_file (p_files p) f (saved_dict values model optimizer))
  else Err RuntimeError)).

(** What a load gives: the value returned, and the states put into the model and
    the optimizer *)
Record loaded : Type := mkLoaded {
  l_checkpoint : option dict; l_model : option pyval; l_optimizer : option pyval }.
Definition nothing_loaded : loaded := mkLoaded None None None.

(** common.py:38-42 and 116-120: the directory of the previous trial *)
Definition load_directory (p : proc) (directory : option string) : res (option path) :=
  match directory with
  | Some s => Ok (Some (to_path s))
  | None => bind (get_in_progress_trial p)
              (fun t => Ok (option_map to_path (m_previous_trial_location (t_meta t))))
  end.
(** common.py:20-60 load_checkpoint; [model], [optimizer]: whether one is given *)
Definition load_checkpoint (p : proc) (directory : option string) (name : string)
  (model optimizer : bool) : res loaded :=
  bind (load_directory p directory) (fun o =>
  match o with
  | None => Ok nothing_loaded
  | Some dir =>
      bind (checkpoint_path dir name) (fun f =>
      match find_file (p_files p) f with
      | None => Ok nothing_loaded
      | Some c => Ok (mkLoaded (Some c)
                       (if model then lookup "model_state_dict" c else None)
                       (if optimizer then lookup "optimizer_state_dict" c else None))
      end)
  end).

(** fnmatch(name, "*.ckpt") *)
Fixpoint ends_with (suffix s : string) : bool :=
  String.eqb s suffix || match s with String _ s' => ends_with suffix s' | EmptyString => false end.
(** common.py:123 the files [*.ckpt] directly in the directory *)
Definition ckpt_files (files : list (path * dict)) (dir : path) : list (path * dict) :=
  filter (fun x => match fst x with
                   | [] => false
                   | f => path_eqb (removelast f) dir && ends_with ".ckpt" (path_name f)
                   end) files.
(** common.py:99-140 load_lightning_checkpoint *)
Definition load_lightning_checkpoint (p : proc) (checkpoint_dir : string)
  (previous : option string) : res (option (path * dict)) :=
  bind (load_directory p previous) (fun o =>
  match o with
  | None => Ok None
  | Some _ =>
      match ckpt_files (p_files p) (to_path checkpoint_dir) with
      | [] => Err FileNotFoundError
      | [x] => Ok (Some x)
      | _ => Err ValueError
      end
  end).

(** ** What happens *)
Section Run.
Variable pyfloat : pyval -> res fl.

Inductive event : Type :=
(** a new process *)
| NewProcess
(** runtime.py:75-77, 374: a run of this process begins *)
| NewRun (root : string)
(** any worker samples a trial *)
| Sample (root id : string) (prev : option string) (config : dict) (time : fl) (worker : string)
(** any worker changes a trial *)
| Update (root id : string) (u : update)
(** the user moves the results to another place *)
| Move (root root' : string)
(** the user makes a directory, or writes a file that torch.load can read *)
| Mkdir (d : path)
| Write (f : path) (d : dict)
(** runtime.py:100-112: this process begins the evaluation of a trial *)
| Enter (id : string)
(** runtime.py:447-455 with 113-116: it ends; [callbacks]: whether all callbacks return *)
| Finish (o : fn_outcome) (tb : string) (drv : default_report_values) (duration time_end : fl) (callbacks : bool)
(** an exception that is no [Exception] (KeyboardInterrupt, SystemExit) in the evaluation *)
| Interrupt
(** this process calls get_initial_directory *)
| Lookup (pipeline_directory : option string)
(** this process calls save_checkpoint *)
| Save (directory : option string) (name : string) (values : option dict) (model optimizer : option pyval).

(** runtime.py:100-112 with 447: the beginning of an evaluation; the trial becomes
    the global *)
Definition enter (p : proc) (id : string) : res proc :=
  bind (get_workers_neps_state p) (fun root =>
  bind (get_trial_by_id (repo_of p root) id) (fun t =>
  match p_current p with
  | Some _ => Err NePSError
  | None => Ok (mkProc (p_repos p) (p_dirs p) (p_files p) (p_state p) (Some t) true (p_cache p))
  end)).

(** runtime.py:447-455, 113-116: the end of an evaluation; the global is only reset
    if nothing is raised by the body or a callback *)
Definition finish (p : proc) (o : fn_outcome) (tb : string) (drv : default_report_values)
  (duration time_end : fl) (callbacks : bool) : res proc :=
  bind (if p_inside p then get_in_progress_trial p else Err RuntimeError) (fun t =>
  bind (evaluate_trial pyfloat t o tb drv duration time_end) (fun _ =>
  if callbacks then Ok (mkProc (p_repos p) (p_dirs p) (p_files p) (p_state p) None false (p_cache p))
  else Err RuntimeError)).

(** An exception leaves the body: nothing is reset (runtime.py:113-116 has no finally) *)
Definition escaped (p : proc) : proc :=
  mkProc (p_repos p) (p_dirs p) (p_files p) (p_state p) (p_current p) false (p_cache p).

(** Where a path is after the directory [from] has been moved *)
Fixpoint below (from p : path) : option path :=
  match from, p with
  | [], _ => Some p
  | a :: from', b :: p' => if String.eqb a b then below from' p' else None
  | _, _ => None
  end.
Definition moved (from to p : path) : path :=
  match below from p with Some rest => to ++ rest | None => p end.

Definition do_event (p : proc) (e : event) : proc :=
  match e with
  | NewProcess => mkProc (p_repos p) (p_dirs p) (p_files p) None None false []
  | NewRun root => mkProc (p_repos p) (p_dirs p) (p_files p) (Some root) (p_current p) (p_inside p) (p_cache p)
  | Sample root id prev config time worker =>
      match new_trial root (repo_of p root) id prev config time worker with
      | Ok t => mkProc (set_key root (t :: repo_of p root) (p_repos p))
                  (to_path (m_location (t_meta t)) :: p_dirs p) (p_files p)
                  (p_state p) (p_current p) (p_inside p) (p_cache p)
      | Err _ => p
      end
  | Update root id u =>
      mkProc (set_key root (map (fun t => if String.eqb (t_id t) id then apply_update u t else t)
                              (repo_of p root)) (p_repos p))
        (p_dirs p) (p_files p) (p_state p) (p_current p) (p_inside p) (p_cache p)
  | Move root root' =>
      let to := moved (to_path root) (to_path root') in
      mkProc (set_key root' (repo_of p root) (remove_key root (p_repos p)))
        (map to (p_dirs p)) (map (fun x => (to (fst x), snd x)) (p_files p)) (p_state p) (p_current p) (p_inside p) (p_cache p)
  | Mkdir d => mkProc (p_repos p) (d :: p_dirs p) (p_files p) (p_state p) (p_current p) (p_inside p) (p_cache p)
  | Write f d => mkProc (p_repos p) (p_dirs p) (put_file (p_files p) f d) (p_state p) (p_current p) (p_inside p) (p_cache p)
  | Enter id => match enter p id with Ok p' => p' | Err _ => p end
  | Finish o tb drv duration time_end callbacks =>
      match finish p o tb drv duration time_end callbacks with Ok p' => p' | Err _ => escaped p end
  | Interrupt => escaped p
  | Lookup d =>
      match get_initial_directory p d with
      | Ok (_, c) => mkProc (p_repos p) (p_dirs p) (p_files p) (p_state p) (p_current p) (p_inside p) c
      | Err _ => p
      end
  | Save directory name values model optimizer =>
      match save_checkpoint p directory name values model optimizer with
      | Ok fs => mkProc (p_repos p) (p_dirs p) fs (p_state p) (p_current p) (p_inside p) (p_cache p)
      | Err _ => p
      end
  end.

Definition start : proc := mkProc [] [] [] None None false [].
Definition run (p : proc) (es : list event) : proc := fold_left do_event es p.
End Run.
