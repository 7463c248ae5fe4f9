(** One trial directory at the granularity of single file-system operations.
    neps/state/filebased.py:67-83 (FileVersioner), 213-257 (ReaderWriterTrial),
    458-487 (FileLocker.lock), neps/state/protocols.py:165-292 (VersionedResource),
    neps/utils/files.py:14-69 (serialize, deserialize). *)
From Verif Require Import Py Trial_model.

(** A file: absent, just truncated by [open(..., "w")], or complete.
    Simplification: contents are smaller than Python's write buffer, so they reach the
    file in one piece when it is closed.  YAML and text encodings round-trip (trusted);
    files hold the decoded value. *)
Inductive file (A : Type) : Type := Absent | Empty | Full (a : A).
Arguments Absent {A}.
Arguments Empty {A}.
Arguments Full {A} a.

(** Version strings: a uuid, or the empty string read from a truncated file. *)
Inductive ver : Type := VerEmpty | VerSha (n : nat).
Definition ver_eqb (a b : ver) : bool :=
  match a, b with
  | VerEmpty, VerEmpty => true
  | VerSha n, VerSha m => Nat.eqb n m
  | _, _ => false
  end.

(** neps/state/filebased.py:73-77 FileVersioner.current *)
Definition ver_current (f : file nat) : option ver :=
  match f with Absent => None | Empty => Some VerEmpty | Full n => Some (VerSha n) end.

(** neps/utils/files.py:14-41 serializable_format: tuples (any non-string iterable)
    become lists.  Objects with a [serialize] method, dataclasses, enums, numpy and
    torch values are not modelled. *)
Fixpoint norm (v : pyval) : pyval :=
  match v with
  | VList l | VTuple l => VList (map norm l)
  | VDict d => VDict (map (fun kv => (fst kv, norm (snd kv))) d)
  | _ => v
  end.

(** What yaml.safe_dump can represent (files.py:49-55). *)
Fixpoint serialisable (v : pyval) : bool :=
  match v with
  | VObj _ => false
  | VList l | VTuple l => forallb serialisable l
  | VDict d => forallb (fun kv => serialisable (snd kv)) d
  | _ => true
  end.

Definition norm_dict (d : dict) : dict := map (fun kv => (fst kv, norm (snd kv))) d.

Definition norm_report (r : report) : report :=
  mkReport (r_trial_id r) (r_loss r) (r_cost r) (r_learning_curve r) (norm_dict (r_extra r))
    (r_err r) (r_tb r) (r_reported_as r) (r_evaluation_duration r).

(** neps/state/filebased.py:217-221: the files of a trial directory (plus .version;
    .lock carries no data). *)
Record tdir : Type := mkDir {
  f_version : file nat;
  f_config : file dict;
  f_meta : file metadata;
  f_state : file tstate;
  f_prev : file string;
  f_report : file report }.

Definition empty_dir : tdir := mkDir Absent Absent Absent Absent Absent Absent.

(** Single operations on the files: open for writing (truncates), close (content). *)
Inductive fop : Type :=
| TruncVersion | FillVersion (n : nat)
| TruncConfig | FillConfig (d : dict)
| TruncMeta | FillMeta (m : metadata)
| TruncState | FillState (s : tstate)
| TruncPrev | FillPrev (s : string)
| TruncReport | FillReport (r : report).

Definition do_fop (x : tdir) (o : fop) : tdir :=
  match o with
  | TruncVersion => mkDir Empty (f_config x) (f_meta x) (f_state x) (f_prev x) (f_report x)
  | FillVersion n => mkDir (Full n) (f_config x) (f_meta x) (f_state x) (f_prev x) (f_report x)
  | TruncConfig => mkDir (f_version x) Empty (f_meta x) (f_state x) (f_prev x) (f_report x)
  | FillConfig d => mkDir (f_version x) (Full d) (f_meta x) (f_state x) (f_prev x) (f_report x)
  | TruncMeta => mkDir (f_version x) (f_config x) Empty (f_state x) (f_prev x) (f_report x)
  | FillMeta m => mkDir (f_version x) (f_config x) (Full m) (f_state x) (f_prev x) (f_report x)
  | TruncState => mkDir (f_version x) (f_config x) (f_meta x) Empty (f_prev x) (f_report x)
  | FillState s => mkDir (f_version x) (f_config x) (f_meta x) (Full s) (f_prev x) (f_report x)
  | TruncPrev => mkDir (f_version x) (f_config x) (f_meta x) (f_state x) Empty (f_report x)
  | FillPrev s => mkDir (f_version x) (f_config x) (f_meta x) (f_state x) (Full s) (f_report x)
  | TruncReport => mkDir (f_version x) (f_config x) (f_meta x) (f_state x) (f_prev x) Empty
  | FillReport r => mkDir (f_version x) (f_config x) (f_meta x) (f_state x) (f_prev x) (Full r)
  end.

Definition do_fops (x : tdir) (os : list fop) : tdir := fold_left do_fop os x.

(** A piece of code: the file operations it performs in order, and the exception it
    ends with, if any. *)
Definition code : Type := (list fop * option exn)%type.
Definition seq (a b : code) : code :=
  match snd a with Some e => a | None => (fst a ++ fst b, snd b) end.

(** neps/utils/files.py:44-55 serialize: the file is opened (truncated) before the
    dump, which may raise. *)
Definition serialize_config (d : dict) : code :=
  if serialisable (VDict d) then ([TruncConfig; FillConfig (norm_dict d)], None)
  else ([TruncConfig], Some TypeError).
Definition serialize_report (r : report) : code :=
  if serialisable (VDict (r_extra r)) then ([TruncReport; FillReport (norm_report r)], None)
  else ([TruncReport], Some TypeError).

(** neps/state/filebased.py:240-257 ReaderWriterTrial.write *)
Definition write_trial (t : trial) : code :=
  seq (serialize_config (t_config t))
  (seq ([TruncMeta; FillMeta (t_meta t)], None)
  (seq ([TruncState; FillState (t_state t)], None)
  (seq (match m_previous_trial_id (t_meta t) with
        | Some p => ([TruncPrev; FillPrev p], None) | None => ([], None) end)
       (match t_report t with Some r => serialize_report r | None => ([], None) end)))).

(** neps/state/filebased.py:79-83 FileVersioner.bump *)
Definition bump_ops (n : nat) : code := ([TruncVersion; FillVersion n], None).

(** neps/utils/files.py:58-69 deserialize: an empty YAML file is None, not a dict. *)
Definition deserialize {A} (f : file A) : res A :=
  match f with
  | Absent => Err FileNotFoundError
  | Empty => Err TypeError
  | Full a => Ok a
  end.

(** neps/state/filebased.py:223-238 ReaderWriterTrial.read *)
Definition read_trial (x : tdir) : res trial :=
  bind (deserialize (f_config x)) (fun c =>
  bind (deserialize (f_meta x)) (fun m =>
  bind (match f_state x with
        | Absent => Err FileNotFoundError
        | Empty => Err ValueError            (* Trial.State("") *)
        | Full s => Ok s end) (fun s =>
  bind (match f_report x with
        | Absent => Ok None
        | Empty => Err TypeError
        | Full r => Ok (Some r) end) (fun r =>
  Ok (mkTrial c m s r))))).

(** A Synced[Trial] object of some process. *)
Record thandle : Type := mkTH { th_current : trial; th_version : ver }.

(** neps/state/protocols.py:165-209 VersionedResource.new: version first, then data. *)
Definition new_code (x : tdir) (t : trial) (n : nat) : code :=
  match ver_current (f_version x) with
  | Some _ => ([], Some VersionedResourceAlreadyExistsError)
  | None => seq (bump_ops n) (write_trial t)
  end.

(** neps/state/protocols.py:211-251 VersionedResource.load *)
Definition load_trial (x : tdir) : res thandle :=
  match ver_current (f_version x) with
  | None => Err VersionedResourceDoesNotExistsError
  | Some v => bind (read_trial x) (fun t => Ok (mkTH t v))
  end.

(** neps/state/protocols.py:258-269 VersionedResource.sync *)
Definition sync_trial (x : tdir) (h : thandle) : res thandle :=
  match ver_current (f_version x) with
  | None => Err VersionedResourceRemovedError
  | Some v =>
      if ver_eqb (th_version h) v then Ok h
      else bind (read_trial x) (fun t => Ok (mkTH t v))
  end.

(** neps/state/protocols.py:271-292 VersionedResource.put: data first, then version. *)
Definition put_code (x : tdir) (h : thandle) (t : trial) (n : nat) : code :=
  match ver_current (f_version x) with
  | None => ([], Some VersionMismatchError)
  | Some v =>
      if ver_eqb (th_version h) v then seq (write_trial t) (bump_ops n)
      else ([], Some VersionMismatchError)
  end.

(** State of the directory when the process is killed after [k] operations of [c]. *)
Definition crash_after (x : tdir) (c : code) (k : nat) : tdir := do_fops x (firstn k (fst c)).

(** State after the code ran to its end. *)
Definition complete (x : tdir) (c : code) : tdir := do_fops x (fst c).
