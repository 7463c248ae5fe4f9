(** Snapshots of the random number generators (neps/state/seed_snapshot.py), their files
    (neps/state/filebased.py:261-354) and the list of searchers (neps/optimizers/info.py). *)
From Coq Require Import String.
From Verif Require Import Py.
Local Open Scope nat_scope.
Local Open Scope string_scope.
Local Open Scope list_scope.

(** ** neps/state/seed_snapshot.py *)

(** [np.random.get_state]: kind, keys, position, has_gauss, cached_gaussian (seed_snapshot.py:16) *)
Record np_state : Type := mkNp { np_kind : string; np_keys : list Z; np_pos : Z; np_has_gauss : Z; np_gauss : fl }.
(** [random.getstate]: version, state, gauss_next (seed_snapshot.py:17) *)
Record py_state : Type := mkPy { py_version : Z; py_keys : list Z; py_gauss : option fl }.
(** seed_snapshot.py:22-35; a tensor is the list of its numbers *)
Record snapshot : Type := mkSnap {
  s_np : option np_state; s_py : option py_state; s_torch : option (list Z); s_cuda : option (list (list Z)) }.

(** The generators of a process: torch may be missing, and have no CUDA devices; else the state of
    every device *)
Record machine : Type := mkMachine {
  g_np : np_state; g_py : py_state; g_torch : option (list Z); g_cuda : option (list (list Z)) }.

(** seed_snapshot.py:47-65 recapture: exceptions of torch (if it cannot be imported) are suppressed *)
Definition recapture (m : machine) (s : snapshot) : snapshot :=
  match g_torch m with
  | Some t => mkSnap (Some (g_np m)) (Some (g_py m)) (Some t) (g_cuda m)
  | None => mkSnap (Some (g_np m)) (Some (g_py m)) (s_torch s) (s_cuda s)
  end.
(** seed_snapshot.py:37-45 new_capture *)
Definition new_capture (m : machine) : snapshot := recapture m (mkSnap None None None None).

(** [torch.cuda.set_rng_state_all]: one device after the other; a device that does not exist is an
    IndexError (seed_snapshot.py:79) *)
Fixpoint set_devices (states devices : list (list Z)) : res (list (list Z)) :=
  match states, devices with
  | [], _ => Ok devices
  | s :: ss, _ :: ds => bind (set_devices ss ds) (fun r => Ok (s :: r))
  | _ :: _, [] => Err IndexError
  end.
(** seed_snapshot.py:67-79 set_as_global_seed_state: the generators afterwards *)
Definition set_global (s : snapshot) (m : machine) : res machine :=
  match s_np s, s_py s with
  | Some np, Some py =>
      match s_torch s, s_cuda s with
      | None, None => Ok (mkMachine np py (g_torch m) (g_cuda m))
      | t, c =>
          match g_torch m with
          | None => Err RuntimeError (* an ImportError *)
          | Some old =>
              bind (match c, g_cuda m with
                    | Some states, Some devices => bind (set_devices states devices) (fun r => Ok (Some r))
                    | _, d => Ok d
                    end) (fun cuda =>
              Ok (mkMachine np py (Some (match t with Some x => x | None => old end)) cuda))
          end
      end
  | _, _ => Err TypeError
  end.

(** seed_snapshot.py:81-114 __eq__ of two snapshots *)
Definition opt_eqb {A} (e : A -> A -> bool) (a b : option A) : bool :=
  match a, b with Some x, Some y => e x y | None, None => true | _, _ => false end.
Definition py_state_eqb (a b : py_state) : bool :=
  Z.eqb (py_version a) (py_version b) && list_eqb Z.eqb (py_keys a) (py_keys b) && opt_eqb fl_eqb (py_gauss a) (py_gauss b).
Definition np_state_eqb (a b : np_state) : bool :=
  String.eqb (np_kind a) (np_kind b) && Z.eqb (np_pos a) (np_pos b) && Z.eqb (np_has_gauss a) (np_has_gauss b) && fl_eqb (np_gauss a) (np_gauss b)
  && list_eqb Z.eqb (np_keys a) (np_keys b).
Definition same_type {A} (a b : option A) : bool := match a, b with Some _, Some _ | None, None => true | _, _ => false end.
Definition snap_eqb (a b : snapshot) : bool :=
  opt_eqb py_state_eqb (s_py a) (s_py b) && opt_eqb np_state_eqb (s_np a) (s_np b)
  && (match s_torch a, s_torch b with Some x, Some y => list_eqb Z.eqb x y | _, _ => true end)
  && (match s_cuda a, s_cuda b with Some x, Some y => forallb (fun p => list_eqb Z.eqb (fst p) (snd p)) (combine x y) | _, _ => true end)
  && same_type (s_torch a) (s_torch b) && same_type (s_cuda a) (s_cuda b).

(** ** filebased.py:261-354 ReaderWriterSeedSnapshot *)

(** The files of the directory.  The numbers of numpy's and Python's states fit into 32 and 64 bits,
    so that nothing is lost. *)
Record seed_files : Type := mkSeedFiles {
  f_py : option (list Z); f_np : option (list Z); f_info : option (string * Z * Z * fl * Z * option fl);
  f_torch : option (list Z); f_cuda : option (list (list Z)) }.
(** filebased.py:323-354 write: files of torch are only written, never removed *)
Definition write (s : snapshot) (d : seed_files) : res seed_files :=
  match s_py s, s_np s with
  | Some py, Some np =>
      Ok (mkSeedFiles (Some (py_keys py)) (Some (np_keys np))
            (Some (np_kind np, np_pos np, np_has_gauss np, np_gauss np, py_version py, py_gauss py))
            (match s_torch s with Some t => Some t | None => f_torch d end)
            (match s_cuda s with Some c => Some c | None => f_cuda d end))
  | _, _ => Err TypeError
  end.
(** filebased.py:275-319 read, with torch *)
Definition read (d : seed_files) : res snapshot :=
  match f_py d, f_np d, f_info d with
  | Some py, Some np, Some (kind, pos, hg, g, v, gn) =>
      Ok (mkSnap (Some (mkNp kind np pos hg g)) (Some (mkPy v py gn)) (f_torch d) (f_cuda d))
  | _, _, _ => Err FileNotFoundError
  end.

(** ** neps/state/neps_state.py:86-141 sample_trial, as far as the generators go: the shared state is
    read and set, [ask] draws, and the new state is stored *)
Section Turn.
  Context {A : Type}.
  Variable ask : machine -> A * machine.
  Definition turn (d : seed_files) (m : machine) : res (A * seed_files * machine) :=
    bind (read d) (fun s =>
    bind (set_global s m) (fun m1 =>
    let (a, m2) := ask m1 in
    bind (write (recapture m2 s) d) (fun d' => Ok (a, d', m2)))).
End Turn.

(** ** neps/optimizers/info.py *)

(** A file in default_searchers: stem, suffix, strategy (if there is one) and text.  [iterdir] lists
    them in any order. *)
Record searcher_file : Type := mkFile { q_stem : string; q_suffix : string; q_strategy : option string; q_text : string }.
Definition is_yaml (f : searcher_file) : bool := String.eqb (q_suffix f) ".yaml".
(** info.py:23-38 get_searchers *)
Definition get_searchers (l : list searcher_file) : list string := map q_stem (filter is_yaml l).
(** info.py:40-59 get_available_algorithms: a set, in some order; every file holds a mapping *)
Definition get_available_algorithms (l : list searcher_file) : list string :=
  nodup String.string_dec (flat_map (fun f => if is_yaml f then match q_strategy f with Some s => if String.eqb s "" then [] else [s] | None => [] end else []) l).
(** info.py:61-80 get_searcher_from_algorithm *)
Definition get_searcher_from_algorithm (l : list searcher_file) (a : string) : list string :=
  map q_stem (filter (fun f => is_yaml f && match q_strategy f with Some s => String.eqb s a | None => false end) l).
(** info.py:82-100 get_searcher_kwargs *)
Definition get_searcher_kwargs (l : list searcher_file) (name : string) : res string :=
  match find (fun f => is_yaml f && prefix name (q_stem f)) l with Some f => Ok (q_text f) | None => Err FileNotFoundError end.
