(** The repository of trials in a directory, used by any number of worker processes.
    neps/state/filebased.py:86-210 (TrialRepoInDirectory), and the parts of
    neps/state/neps_state.py:49-62, 201-223 that go through it. *)
From Verif Require Import Py Trial_model Fs_model.

(** The names of the trial directories are "config_" + id (filebased.py:131, 170). *)
Definition config_ : string := "config_".
Definition dirname (id : string) : string := config_ ++ id.
Global Arguments dirname : simpl never.

(** [name.replace("config_", "")] (filebased.py:97): leftmost, non-overlapping
    occurrences are dropped.  [skip] counts the rest of an occurrence. *)
Fixpoint drop_config (skip : nat) (s : string) : string :=
  match s with
  | EmptyString => EmptyString
  | String c s' =>
      match skip with
      | S k => drop_config k s'
      | O => if String.prefix config_ s then drop_config 6 s' else String c (drop_config 0 s')
      end
  end.

(** The directory: names of the sub-directories with their files.
    Simplification: ids are single path components; entries that are not trial
    directories are left out. *)
Definition disk := list (string * tdir).

(** One process' [_cache] (filebased.py:91): id to the Synced object. *)
Definition cache := list (string * thandle).

(** neps/state/filebased.py:93-100 all_trial_ids.  A Python set has no fixed order;
    here it is the order of the directory listing, which is arbitrary. *)
Definition all_trial_ids (d : disk) : list string :=
  nodup string_dec
    (map (fun e => drop_config 0 (fst e))
       (filter (fun e => String.prefix config_ (fst e)) d)).

(** neps/state/filebased.py:102-146 get_by_id *)
Definition get_by_id (d : disk) (c : cache) (id : string) : cache * res thandle :=
  match lookup id c with
  | Some h => (c, Ok h)
  | None =>
      match lookup (dirname id) d with
      | None => (c, Err TrialNotFoundError)
      | Some x =>
          match load_trial x with
          | Ok h => (set_key id h c, Ok h)
          | Err e => (c, Err e)
          end
      end
  end.

(** neps/state/protocols.py:491-494 Synced.synced, on the Synced object cached for [id]
    (it changes that object).  If the directory is gone, taking the lock creates it
    anew and there is no version. *)
Definition synced (d : disk) (c : cache) (id : string) : cache * res trial :=
  match lookup id c with
  | None => (c, Err KeyError)
  | Some h =>
      match lookup (dirname id) d with
      | None => (c, Err VersionedResourceRemovedError)
      | Some x =>
          match sync_trial x h with
          | Ok h' => (set_key id h' c, Ok (th_current h'))
          | Err e => (c, Err e)
          end
      end
  end.

(** A loop over ids that may change the cache and stops at the first exception. *)
Fixpoint each {A} (f : cache -> string -> cache * res A) (c : cache) (ids : list string)
  : cache * res (list A) :=
  match ids with
  | [] => (c, Ok [])
  | id :: ids' =>
      match f c id with
      | (c1, Err e) => (c1, Err e)
      | (c1, Ok a) =>
          match each f c1 ids' with
          | (c2, Err e) => (c2, Err e)
          | (c2, Ok l) => (c2, Ok (a :: l))
          end
      end
  end.

(** neps/state/filebased.py:193-201 all: the returned dictionary maps each id to the
    object in the cache. *)
Definition get_all (d : disk) (c : cache) : cache * res (list thandle) :=
  each (get_by_id d) c (all_trial_ids d).

(** [sorted(..., key=time_sampled)]: stable, uses [<] only (filebased.py:210). *)
Fixpoint insert_by_time (e : string * fl) (l : list (string * fl)) : list (string * fl) :=
  match l with
  | [] => [e]
  | e' :: l' => if fl_ltb (snd e') (snd e) then e' :: insert_by_time e l' else e :: l
  end.
Definition sort_by_time (l : list (string * fl)) : list (string * fl) :=
  fold_right insert_by_time [] l.

(** neps/state/filebased.py:203-210 pending *)
Definition pending (d : disk) (c : cache) : cache * res (list string) :=
  match get_all d c with
  | (c1, Err e) => (c1, Err e)
  | (c1, Ok _) =>
      match each (fun c id => match synced d c id with
                              | (c', Ok t) => (c', Ok (id, t))
                              | (c', Err e) => (c', Err e)
                              end) c1 (all_trial_ids d) with
      | (c2, Err e) => (c2, Err e)
      | (c2, Ok l) =>
          (c2, Ok (map fst (sort_by_time
             (map (fun p => (fst p, m_time_sampled (t_meta (snd p))))
                (filter (fun p => tstate_eqb (t_state (snd p)) PENDING) l)))))
      end
  end.

(** neps/state/neps_state.py:201-215 get_next_pending_trial() with n = None *)
Definition get_next_pending (d : disk) (c : cache) : cache * res (option trial) :=
  match pending d c with
  | (c1, Err e) => (c1, Err e)
  | (c1, Ok []) => (c1, Ok None)
  | (c1, Ok (id :: _)) =>
      match synced d c1 id with
      | (c2, Ok t) => (c2, Ok (Some t))
      | (c2, Err e) => (c2, Err e)
      end
  end.

(** neps/state/neps_state.py:221-223 get_all_trials *)
Definition get_all_trials (d : disk) (c : cache) : cache * res (list trial) :=
  match get_all d c with
  | (c1, Err e) => (c1, Err e)
  | (c1, Ok _) => each (synced d) c1 (all_trial_ids d)
  end.

(** filebased.py:178 [trial.metadata.location = str(config_path)] *)
Definition set_location (t : trial) (loc : string) : trial :=
  let m := t_meta t in
  mkTrial (t_config t)
    (mkMeta (m_id m) loc (m_previous_trial_id m) (m_previous_trial_location m)
       (m_sampling_worker_id m) (m_time_sampled m) (m_evaluating_worker_id m)
       (m_evaluation_duration m) (m_time_submitted m) (m_time_started m) (m_time_end m))
    (t_state t) (t_report t).

Section Root.
(** The absolute path of the repository's directory. *)
Variable root : string.

Definition located (t : trial) : trial := set_location t (root ++ "/" ++ dirname (t_id t)).

(** neps/state/filebased.py:148-191 put_new, run by one process alone; [n] is the
    fresh version.  Taking the lock creates the directory. *)
Definition put_new (d : disk) (c : cache) (t : trial) (n : nat)
  : disk * cache * res thandle :=
  match lookup (dirname (t_id t)) d with
  | Some _ => (d, c, Err TrialAlreadyExistsError)
  | None =>
      let t' := located t in
      let code := new_code empty_dir t' n in
      let d' := d ++ [(dirname (t_id t), complete empty_dir code)] in
      match snd code with
      | Some e => (d', c, Err e)
      | None => let h := mkTH t' (VerSha n) in (d', set_key (t_id t) h c, Ok h)
      end
  end.

(** The process is killed during put_new: after taking the lock (which creates the
    directory) and [k] operations on the files ([None]: before that). *)
Definition put_new_killed (d : disk) (t : trial) (n : nat) (k : option nat) : disk :=
  match lookup (dirname (t_id t)) d, k with
  | None, Some k => d ++ [(dirname (t_id t), crash_after empty_dir (new_code empty_dir (located t) n) k)]
  | _, _ => d
  end.

(** neps/state/neps_state.py:49-62 put_updated_trial of the trial [f t], where [t] is
    the object this process got earlier, i.e. the object in the cache, modified in
    place by [f] (as the worker does, e.g. trial.set_evaluating, runtime.py:434). *)
Definition put_updated (d : disk) (c : cache) (id : string) (f : trial -> trial) (n : nat)
  : disk * cache * res unit :=
  match get_by_id d c id with
  | (c1, Err e) => (d, c1, Err e)
  | (c1, Ok h) =>
      let t' := f (th_current h) in
      match lookup (dirname id) d with
      | None => (d, set_key id (mkTH t' (th_version h)) c1, Err VersionMismatchError)
      | Some x =>
          let code := put_code x h t' n in
          match snd code with
          | Some e => (set_key (dirname id) (complete x code) d,
                       set_key id (mkTH t' (th_version h)) c1, Err e)
          | None => (set_key (dirname id) (complete x code) d,
                     set_key id (mkTH t' (VerSha n)) c1, Ok tt)
          end
      end
  end.

(** A repository and its processes (each with its cache); versions are numbered. *)
Record rstate : Type := mkR { r_disk : disk; r_cache : nat -> cache; r_next : nat }.
Definition r_init : rstate := mkR [] (fun _ => []) 0.

(** What a process [w] can do. *)
Inductive rop : Type :=
| RPutNew (w : nat) (t : trial)
| RUpdate (w : nat) (id : string) (f : trial -> trial)
| RNext (w : nat)
| RAll (w : nat)
| RRestart (w : nat)
| RKilledNew (w : nat) (t : trial) (k : option nat).

Definition rstep (s : rstate) (o : rop) : rstate :=
  match o with
  | RPutNew w t =>
      let '(d, c, _) := put_new (r_disk s) (r_cache s w) t (r_next s) in
      mkR d (upd (r_cache s) w c) (S (r_next s))
  | RUpdate w id f =>
      let '(d, c, _) := put_updated (r_disk s) (r_cache s w) id f (r_next s) in
      mkR d (upd (r_cache s) w c) (S (r_next s))
  | RNext w =>
      mkR (r_disk s) (upd (r_cache s) w (fst (get_next_pending (r_disk s) (r_cache s w)))) (r_next s)
  | RAll w =>
      mkR (r_disk s) (upd (r_cache s) w (fst (get_all_trials (r_disk s) (r_cache s w)))) (r_next s)
  | RRestart w => mkR (r_disk s) (upd (r_cache s) w []) (r_next s)
  | RKilledNew w t k =>
      mkR (put_new_killed (r_disk s) t (r_next s) k) (upd (r_cache s) w []) (S (r_next s))
  end.

Definition rrun (s : rstate) (os : list rop) : rstate := fold_left rstep os s.

(** The result [w] gets for each reading operation. *)
Definition next_pending_of (s : rstate) (w : nat) : res (option trial) :=
  snd (get_next_pending (r_disk s) (r_cache s w)).
Definition pending_of (s : rstate) (w : nat) : res (list string) :=
  snd (pending (r_disk s) (r_cache s w)).
Definition all_of (s : rstate) (w : nat) : res (list trial) :=
  snd (get_all_trials (r_disk s) (r_cache s w)).
Definition put_new_of (s : rstate) (w : nat) (t : trial) : res thandle :=
  snd (put_new (r_disk s) (r_cache s w) t (r_next s)).
End Root.
