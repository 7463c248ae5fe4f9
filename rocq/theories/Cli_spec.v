(** What the commands of the command line should show and do. *)
From Coq Require Import Ascii String Sorting.
From Verif Require Import Py Trial_model Limit_spec Status_model Status_spec Set_model Yam_spec.
Local Open Scope string_scope.
Local Open Scope list_scope.
Local Notation length := List.length.

(** ** Texts of values *)
Definition digits (ds : list nat) : Prop := ds <> [] /\ Forall (fun d => d < 10)%nat ds.
(** an integer: sign and digits *)
Definition int_text (s : string) (z : Z) : Prop :=
  exists g ds, digits ds /\ list_ascii_of_string s = sign_text g ++ map digit_char ds /\ z = signed g (digits_value ds).
(** a number with a point, with digits before or after it *)
Definition point_text (s : string) (n d : Z) : Prop :=
  exists g i f, digits (i ++ f) /\ list_ascii_of_string s = sign_text g ++ map digit_char i ++ "."%char :: map digit_char f /\
    n = signed g (digits_value (i ++ f)) /\ d = (10 ^ Z.of_nat (length f))%Z.
(** a number with an exponent *)
Definition exp_text (s : string) (n d : Z) : Prop :=
  exists c, valid c /\ list_ascii_of_string s = text c /\ (n, d) = sci_value c.
Definition digit_in (s : string) : Prop := exists d, (d < 10)%nat /\ In (digit_char d) (list_ascii_of_string s).

(** what the value in [key=value] should be *)
Inductive reads : string -> pyval -> Prop :=
| rd_true s : spells s "true" -> reads s (VBool true)
| rd_false s : spells s "false" -> reads s (VBool false)
| rd_int s z : int_text s z -> reads s (VInt z)
| rd_point s n d f : point_text s n d -> nearest n d f -> reads s (VFloat f)
| rd_exp s n d f : exp_text s n d -> nearest n d f -> reads s (VFloat f)
| rd_text s : ~ spells s "true" -> ~ spells s "false" -> ~ digit_in s -> reads s (VStr s).

(** ** key=value *)
Definition no_eq (k : string) : Prop := ~ In "="%char (list_ascii_of_string k).
Definition pair_text (i k v : string) : Prop := no_eq k /\ i = (k ++ String "=" v)%string.
(** [v] is the value in the last item for [k] *)
Definition last_for (items : list string) (k v : string) : Prop :=
  exists l1 i l2, items = l1 ++ i :: l2 /\ pair_text i k v /\ forall j u, In j l2 -> ~ pair_text j k u.

(** ** Trials *)
(** the identifier is this number (of decimal digits) *)
Definition id_number (t : trial) (n : Z) : Prop :=
  exists ds, digits ds /\ list_ascii_of_string (t_id t) = map digit_char ds /\ n = digits_value ds.
Definition has_loss (t : trial) (l : fl) : Prop := exists r, t_report t = Some r /\ r_loss r = Some l.
(** better than every trial before it, in the order of numbers *)
Definition incumbent (ts : list trial) (t : trial) : Prop :=
  In t ts /\ exists n l, id_number t n /\ has_loss t l /\ fl_lt l FPInf /\
    forall u m l', In u ts -> id_number u m -> (m < n)%Z -> has_loss u l' -> fl_lt l l' \/ l' = FNaN.
(** all identifiers are numbers, no two trials have the same number *)
Definition numbered (ts : list trial) : Prop :=
  (forall t, In t ts -> exists n, id_number t n) /\
  (forall t u n, In t ts -> In u ts -> id_number t n -> id_number u n -> t = u) /\ NoDup (map t_id ts).
Definition all_losses (ts : list trial) : Prop := forall t r, In t ts -> t_report t = Some r -> exists l, r_loss r = Some l.

(** [a] has the larger number *)
Definition later (a b : trial) : Prop := exists n m, id_number a n /\ id_number b m /\ (m < n)%Z.
(** number of trials that do not come after [t] *)
Definition rank (ts : list trial) (t : trial) (n : nat) : Prop := number_of (fun u => ~ later u t) ts n.

(** [t] was sampled after [u] *)
Definition newer (t u : trial) : Prop := fl_lt (m_time_sampled (t_meta u)) (m_time_sampled (t_meta t)).
Definition times (ts : list trial) : Prop := forall t, In t ts -> m_time_sampled (t_meta t) <> FNaN.
(** [l]: the (at most) [k] last sampled of [ts], the newest first *)
Definition newest_of (k : nat) (ts l : list trial) : Prop :=
  length l = Nat.min k (length ts) /\ NoDup (map t_id l) /\ incl l ts /\
  StronglySorted (fun a b => ~ newer b a) l /\ forall t u, In t l -> In u ts -> ~ In u l -> ~ newer u t.
(** [l]: all trials of [ts] in the state, the newest first *)
Definition all_in_state (x : tstate) (ts l : list trial) : Prop :=
  NoDup (map t_id l) /\ (forall t, In t l <-> In t ts /\ t_state t = x) /\ StronglySorted (fun a b => ~ newer b a) l.

(** ** The arguments of neps.run that the options stand for *)
Definition given {A} (k : string) (f : A -> pyval) (o : option A) : dict := match o with Some a => [(k, f a)] | None => [] end.
Definition switched (k : string) (b : bool) : dict := if b then [(k, VBool true)] else [].
From Verif Require Import Cli_model.
(** the options that are there, with [fn] for the pipeline that --run-pipeline names *)
Definition call_of (a : run_opts) (fn : option pyval) (kwargs : dict) : dict :=
  given "run_args" VStr (o_run_args a) ++ given "run_pipeline" (fun v => v) fn ++
  given "pipeline_space" VStr (o_pipeline_space a) ++ given "root_directory" VStr (o_root_directory a) ++
  switched "overwrite_working_directory" (o_overwrite a) ++ given "post_run_summary" VBool (o_summary a) ++
  given "development_stage_id" VStr (o_stage a) ++ given "task_id" VStr (o_task a) ++
  given "max_evaluations_total" VInt (o_total a) ++ given "max_evaluations_per_run" VInt (o_per_run a) ++
  switched "continue_until_max_evaluation_completed" (o_continue a) ++ given "max_cost_total" VFloat (o_cost a) ++
  switched "ignore_errors" (o_ignore a) ++ given "loss_value_on_error" VFloat (o_loss_err a) ++
  given "cost_value_on_error" VFloat (o_cost_err a) ++ given "searcher" VStr (o_searcher a) ++ kwargs.
(** --run-pipeline path:name *)
Definition names_pipeline (E : env) (o : option string) (fn : option pyval) : Prop :=
  match o with
  | None => fn = None
  | Some s => exists path name f, s = (path ++ String ":" name)%string /\ ~ In ":"%char (list_ascii_of_string path) /\
      ~ In ":"%char (list_ascii_of_string name) /\ e_load E (VStr path) (VStr name) = Ok f /\ fn = Some f
  end.
(** --searcher-kwargs *)
Definition gives_kwargs (o : option (list string)) (kwargs : dict) : Prop :=
  match o with Some l => parse_kv_pairs l = Ok kwargs | None => kwargs = [] end.

(** ** Showing *)
(** the times of the trial can be written *)
Definition writable (f : fl -> res string) (x : fl) : Prop := exists s, f x = Ok s.
Definition shows (stamp duration since : fl -> res string) (t : trial) (r : row) : Prop :=
  rw_id r = t_id t /\ rw_worker r = m_sampling_worker_id (t_meta t) /\ rw_state r = t_state t /\
  stamp (m_time_sampled (t_meta t)) = Ok (rw_sampled r) /\
  (forall l, rw_loss r = Some l <-> has_loss t l) /\
  (t_state t = PENDING \/ t_state t = EVALUATING -> since (m_time_sampled (t_meta t)) = Ok (rw_duration r)) /\
  (t_state t <> PENDING -> t_state t <> EVALUATING -> forall d, m_evaluation_duration (t_meta t) = Some d -> d <> FZ 0 ->
     duration d = Ok (rw_duration r)).
(** the directory has been made by a run *)
Definition made_by_run (p : place) : Prop := incl state_dirs (pl_entries p).
Definition writes (stamp duration since : fl -> res string) (ts : list trial) : Prop := forall t, In t ts ->
  writable stamp (m_time_sampled (t_meta t)) /\ writable since (m_time_sampled (t_meta t)) /\
  forall d, m_evaluation_duration (t_meta t) = Some d -> writable duration d.
(** what should be listed *)
Definition lists_as (a : status_args) (ts l : list trial) : Prop :=
  if sa_pending a then all_in_state PENDING ts l
  else if sa_evaluating a then all_in_state EVALUATING ts l
  else if sa_succeeded a then all_in_state SUCCESS ts l
  else newest_of 7 ts l.
(** a line of the table of results *)
Definition row_for (t : trial) (x : string * option fl * dict) : Prop := exists l, x = (t_id t, Some l, t_config t) /\ has_loss t l.
(** the directory that a command is to look at: the one given, or that of run_config.yaml *)
Definition asked (w : world) (arg : option string) (d : string) : Prop :=
  d <> "" /\ (arg = Some d \/ (arg = None /\ exists x, w_config w = Some (Ok (VDict x)) /\ lookup "root_directory" x = Some (VStr d))).
