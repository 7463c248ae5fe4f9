(** Specification for the repository of trials. *)
From Verif Require Import Py Trial_model Fs_model Fs_spec Repo_model.

(** [s] contains [sub]. *)
Definition contains (sub s : string) : Prop := exists a b, s = (a ++ sub ++ b)%string.

(** What a new process reads for id [id]. *)
Definition stored (d : disk) (id : string) (t : trial) : Prop :=
  exists x v, lookup (config_ ++ id)%string d = Some x /\ load_trial x = Ok (mkTH t v).

(** New trials as the sampler makes them: plain data, an id without "config_" in it,
    not reported yet, a proper sampling time. *)
Definition proper_new (t : trial) : Prop :=
  plain_trial t /\ ~ contains "config_" (t_id t) /\ t_report t = None /\
  m_time_sampled (t_meta t) <> FNaN.

(** Modifications as the worker makes them: identity and sampling time stay, plain
    data stays plain, a report is not dropped. *)
Definition proper_update (f : trial -> trial) : Prop := forall t,
  (plain_trial t -> plain_trial (f t)) /\ t_id (f t) = t_id t /\
  m_time_sampled (t_meta (f t)) = m_time_sampled (t_meta t) /\
  (t_report (f t) = None -> t_report t = None).

(** The process was killed before it created the directory, or after the eighth file
    operation: version, config, metadata and state files each opened and written. *)
Definition harmless (k : option nat) : Prop :=
  match k with None => True | Some k => 8 <= k end.

(** Operations without badly timed kills. *)
Definition proper_op (o : rop) : Prop :=
  match o with
  | RPutNew _ t => proper_new t
  | RUpdate _ _ f => proper_update f
  | RKilledNew _ t k => proper_new t /\ harmless k
  | _ => True
  end.

(** Trial ids put so far, in order. *)
Fixpoint put_ids (os : list rop) : list string :=
  match os with
  | [] => []
  | RPutNew _ t :: os' => t_id t :: put_ids os'
  | RKilledNew _ t (Some _) :: os' => t_id t :: put_ids os'
  | _ :: os' => put_ids os'
  end.
