(** What chains of trials and checkpoints should be like. *)
From Coq Require Import Ascii String.
From Verif Require Import Py Trial_model Eval_model Chain_model.
Local Open Scope string_scope.
Local Open Scope list_scope.

(** ** The first trial of a chain *)
Inductive first_of (r : list trial) : trial -> trial -> Prop :=
| first_itself t : In t r -> m_previous_trial_id (t_meta t) = None -> first_of r t t
| first_earlier t q u : In t r -> In q r -> m_previous_trial_id (t_meta t) = Some (t_id q) ->
    first_of r q u -> first_of r t u.

(** ** Texts *)
Fixpoint occurs (c : ascii) (s : string) : Prop :=
  match s with EmptyString => False | String a s' => a = c \/ occurs c s' end.

(** A file name, without directories *)
Definition simple_name (n : string) : Prop := n <> "" /\ n <> "." /\ ~ occurs "/"%char n.

(** [n] without its extension: "run.best.ckpt" gives "run.best"; names as "run",
    ".run" and "run." have none *)
Inductive base_name : string -> string -> Prop :=
| base_with b e : b <> "" -> e <> "" -> ~ occurs "."%char e -> base_name (b ++ "." ++ e) b
| base_without n : (forall b e, b <> "" -> e <> "" -> ~ occurs "."%char e -> n <> (b ++ "." ++ e)%string) ->
    base_name n n.

(** ** Histories *)
Definition no_move (es : list event) : Prop := forall a b, ~ In (Move a b) es.
(** Every run begun is one with this directory. *)
Definition only_runs (root : string) (es : list event) : Prop :=
  forall r, In (NewRun r) es -> r = root.

(** The event saves a checkpoint into the directory, under a name with this base name. *)
Definition saves_to (p : proc) (e : event) (dir : path) (b : string) : Prop :=
  exists directory name values m o, e = Save directory name values m o /\
    match directory with
    | Some s => to_path s = dir
    | None => exists t, p_current p = Some t /\ to_path (m_location (t_meta t)) = dir
    end /\ base_name name b.
(** In the history after [p], no such checkpoint is saved, no file is written otherwise,
    names are file names, and nothing is moved. *)
Fixpoint undisturbed (pyfloat : pyval -> res fl) (p : proc) (es : list event) (dir : path) (b : string) : Prop :=
  match es with
  | [] => True
  | e :: es' =>
      ~ saves_to p e dir b /\
      (forall d n v m o, e = Save d n v m o -> simple_name n) /\
      (forall f d, e <> Write f d) /\ (forall r r', e <> Move r r') /\
      undisturbed pyfloat (do_event pyfloat p e) es' dir b
  end.

(** The user's function returned something that can be read, or raised an [Exception]. *)
Definition reportable (pyfloat : pyval -> res fl) (drv : default_report_values) (o : fn_outcome) : Prop :=
  match o with
  | FnRaises _ => True
  | FnReturns v => is_ok (parse_user_result pyfloat v (cost_if_not_provided drv)
                            (learning_curve_if_not_provided drv)) = true
  end.
