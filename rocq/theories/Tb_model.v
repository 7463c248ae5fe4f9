(** The logger for TensorBoard: neps/plot/tensorboard_eval.py (class tblogger), with the callbacks at
    the end of a trial (neps/runtime.py:92-116).

    The process and the trials are those of Chain_model.v; its root directories are the directories
    of configurations, the run's directory is their parent.  A SummaryWriter is the directory it
    writes to; making one makes the directory; closing one loses nothing, and one that was closed
    writes to the same directory again (torch/utils/tensorboard/writer.py).  Left out: the contents
    of images (their places in a grid are in [grid_places]) and whether the run's directory exists. *)
From Coq Require Import Ascii String.
From Verif Require Import Py Trial_model Eval_model Status_model Chain_model.
Local Open Scope string_scope.
Local Open Scope list_scope.

(** What is written: a scalar (tag, value, step), hyperparameters with the loss, an image *)
Inductive entry : Type :=
| Scalar (tag : string) (value : fl) (step : Z)
| Hparams (config : dict) (loss : fl) (step : Z)
| Image (tag : string) (step : Z)
| Incumbent (value : fl) (step : nat).

(** tensorboard_eval.py:66-83: the variables of the class *)
Record logger : Type := mkLogger {
  lg_id : option string; lg_config : option dict; lg_work : option string; lg_root : option string;
  lg_prev : option string; lg_disabled : bool; lg_loss : option fl; lg_epoch : option Z;
  lg_incumbent : bool; lg_writer : option path; lg_summary : option path;
  (** whether end_of_config is among the callbacks (runtime.py:92-97) *)
  lg_registered : bool }.
Definition new_logger : logger := mkLogger None None None None None false None None false None None false.

(** [w_events]: what has been written, with the directory, the oldest first; [w_tb]: the directories
    "tbevents" and "summary" that exist *)
Record tworld : Type := mkTW { w_proc : proc; w_log : logger; w_tb : list path; w_events : list (path * entry) }.

Definition set_log (w : tworld) (l : logger) : tworld := mkTW (w_proc w) l (w_tb w) (w_events w).
Definition add_event (w : tworld) (d : path) (e : entry) : tworld := mkTW (w_proc w) (w_log w) (w_tb w) (w_events w ++ [(d, e)]).

(** One thing after the other; an exception ends it, what was done is kept *)
Definition act := tworld -> tworld * res unit.
Definition andthen (a b : act) : act := fun w => match a w with (w', Ok _) => b w' | (w', Err e) => (w', Err e) end.
Definition nothing : act := fun w => (w, Ok tt).

(** tensorboard_eval.py:85-108 _initiate_internal_configurations *)
Definition initiate : act := fun w =>
  match get_in_progress_trial (w_proc w) with
  | Err e => (w, Err e)
  | Ok t =>
      match get_workers_neps_state (w_proc w) with
      | Err e => (w, Err e)
      | Ok root =>
          let l := w_log w in
          (set_log w (mkLogger (Some (t_id t)) (Some (t_config t)) (Some (m_location (t_meta t))) (Some root)
                        (m_previous_trial_location (t_meta t)) (lg_disabled l) (lg_loss l) (lg_epoch l)
                        (lg_incumbent l) (lg_writer l) (lg_summary l) true), Ok tt)
      end
  end.

Definition with_writer (l : logger) (id : string) (d : path) : logger :=
  mkLogger (Some id) (lg_config l) (lg_work l) (lg_root l) (lg_prev l) (lg_disabled l) (lg_loss l) (lg_epoch l)
    (lg_incumbent l) (Some d) (lg_summary l) (lg_registered l).
Definition with_id (l : logger) (id : string) : logger :=
  mkLogger (Some id) (lg_config l) (lg_work l) (lg_root l) (lg_prev l) (lg_disabled l) (lg_loss l) (lg_epoch l)
    (lg_incumbent l) (lg_writer l) (lg_summary l) (lg_registered l).

(** The cache of initial directories after a lookup (common.py:143, 176-181) *)
Definition with_cache (p : proc) (c : list (string * path)) : proc :=
  mkProc (p_repos p) (p_dirs p) (p_files p) (p_state p) (p_current p) (p_inside p) c.

(** tensorboard_eval.py:114-142 _initialize_writers; [str(path).rsplit("/", maxsplit=1)[-1]] is the name *)
Definition initialize_writers : act := fun w =>
  let l := w_log w in
  match lg_prev l, lg_work l with
  | None, Some loc =>
      let d := to_path loc ++ ["tbevents"] in
      (mkTW (w_proc w) (with_writer l (path_name (to_path loc)) d) (d :: w_tb w) (w_events w), Ok tt)
  | Some _, Some loc =>
      match get_initial_directory (w_proc w) (Some loc) with
      | Err e => (w, Err e)
      | Ok (init, c) =>
          let d := init ++ ["tbevents"] in
          if existsb (path_eqb d) (w_tb w)
          then (mkTW (with_cache (w_proc w) c) (with_writer l (path_name init) d) (w_tb w) (w_events w), Ok tt)
          else (mkTW (with_cache (w_proc w) c) (with_id l (path_name init)) (w_tb w) (w_events w), Err FileNotFoundError)
      end
  | _, None => (w, Ok tt)
  end.
(** tensorboard_eval.py:110-112 and the beginning of all [_write_] functions *)
Definition ensure_writer : act := fun w =>
  match lg_writer (w_log w) with Some _ => (w, Ok tt) | None => initialize_writers w end.

(** [str(tblogger.config_id) + "/" + tag] *)
Definition tag_of (l : logger) (tag : string) : string :=
  ((match lg_id l with Some i => i | None => "None" end) ++ "/" ++ tag)%string.

(** tensorboard_eval.py:254-287 _write_scalar_config.  Without a step torch uses no step: the epoch is
    always set before. *)
Definition write_scalar (tag : string) (value : fl) : act :=
  andthen ensure_writer (fun w =>
    match lg_writer (w_log w), lg_epoch (w_log w) with
    | Some d, Some n => (add_event w d (Scalar (tag_of (w_log w) tag) value n), Ok tt)
    | _, _ => (w, Err ValueError)
    end).

(** tensorboard_eval.py:370-410 _write_hparam_config with 45-63 add_hparams *)
Definition write_hparams : act :=
  andthen ensure_writer (fun w =>
    match lg_writer (w_log w) with
    | None => (w, Err ValueError)
    | Some d =>
        match lg_config (w_log w), lg_epoch (w_log w), lg_loss (w_log w) with
        | Some c, Some n, Some x => (add_event w d (Hparams c x n), Ok tt)
        | _, _, _ => (w, Err AssertionError)
        end
    end).

(** tensorboard_eval.py:289-368 _write_image_config: when an image is written.  [counter]: every how
    many epochs; a ZeroDivisionError of [n % 0] is a RuntimeError here. *)
Definition write_image (tag : string) (counter : Z) : act :=
  andthen ensure_writer (fun w =>
    match lg_epoch (w_log w) with
    | None => (w, Err AssertionError)
    | Some n =>
        if (n <? 0)%Z then (w, Ok tt)
        else if (counter =? 0)%Z then (w, Err RuntimeError)
        else if (n mod counter =? 0)%Z then
          match lg_writer (w_log w) with
          | Some d => (add_event w d (Image (tag_of (w_log w) tag) n), Ok tt)
          | None => (w, Err ValueError)
          end
        else (w, Ok tt)
    end).

(** Extra data: tblogger.scalar_logging, tblogger.image_logging (tensorboard_eval.py:195-252), or
    a tuple that begins with something else *)
Inductive extra : Type := XScalar (v : fl) | XImage (counter : Z) | XOther.
Definition write_extra (kx : string * extra) : act :=
  match snd kx with
  | XScalar v => write_scalar (fst kx) v
  | XImage c => write_image (fst kx) c
  | XOther => nothing
  end.

Record log_args : Type := mkLA {
  la_loss : fl; la_epoch : Z; la_scalar : bool; la_hparam : bool; la_incumbent : bool; la_extra : list (string * extra) }.

(** tensorboard_eval.py:479-530 log *)
Definition log (a : log_args) : act := fun w =>
  let l := w_log w in
  if lg_disabled l then (w, Ok tt)
  else
    andthen initiate
      (andthen (if la_scalar a then write_scalar "Loss" (la_loss a) else nothing)
        (andthen (if la_hparam a then write_hparams else nothing)
          (fold_right (fun kx => andthen (write_extra kx)) nothing (la_extra a))))
      (set_log w (mkLogger (lg_id l) (lg_config l) (lg_work l) (lg_root l) (lg_prev l) (lg_disabled l)
                    (Some (la_loss a)) (Some (la_epoch a)) (la_incumbent a) (lg_writer l) (lg_summary l) (lg_registered l))).

Section Run.
Variable pyfloat : pyval -> res fl.

(** tensorboard_eval.py:412-444 _tracking_incumbent_api *)
Definition track_incumbent : act := fun w =>
  let l := w_log w in
  match lg_root l with
  | None => (w, Err AssertionError)
  | Some root =>
      match get_summary pyfloat (repo_of (w_proc w) root) with
      | Err e => (w, Err e)
      | Ok s =>
          let d := match lg_summary l with Some d => d | None => removelast (to_path root) ++ ["summary"] end in
          (mkTW (w_proc w)
             (mkLogger (lg_id l) (lg_config l) (lg_work l) (lg_root l) (lg_prev l) (lg_disabled l) (lg_loss l) (lg_epoch l)
                (lg_incumbent l) (lg_writer l) (Some d) (lg_registered l))
             (d :: w_tb w) (w_events w ++ [(d, Incumbent (s_best_loss s) (s_num_evaluated s))]), Ok tt)
      end
  end.

(** tensorboard_eval.py:144-154 end_of_config *)
Definition end_of_config : act := fun w =>
  let l := w_log w in
  let w' := set_log w (mkLogger (lg_id l) (lg_config l) (lg_work l) (lg_root l) (lg_prev l) (lg_disabled l) (lg_loss l) (lg_epoch l)
                         (lg_incumbent l) None (lg_summary l) (lg_registered l)) in
  if lg_incumbent l then track_incumbent w' else (w', Ok tt).

(** tensorboard_eval.py:446-470 disable, enable *)
Definition set_disabled (b : bool) (w : tworld) : tworld :=
  let l := w_log w in
  set_log w (mkLogger (lg_id l) (lg_config l) (lg_work l) (lg_root l) (lg_prev l) b (lg_loss l) (lg_epoch l)
               (lg_incumbent l) (lg_writer l) (lg_summary l) (lg_registered l)).

(** ** What happens *)
Inductive tevent : Type :=
(** what Chain_model.v describes, with the callback at the end of evaluations; a new process has a new class *)
| TChain (e : event)
| TLog (a : log_args)
| TEnable | TDisable
(** another process makes the directory *)
| TOther (d : path).

Definition with_proc (w : tworld) (p : proc) : tworld := mkTW p (w_log w) (w_tb w) (w_events w).
Definition do_tevent (w : tworld) (e : tevent) : tworld :=
  match e with
  | TChain NewProcess => mkTW (do_event pyfloat (w_proc w) NewProcess) new_logger (w_tb w) (w_events w)
  | TChain (Finish o tb drv duration time_end callbacks) =>
      (** runtime.py:113-116: the callbacks run when nothing was raised, before the trial is stored
          (runtime.py:447-475); [callbacks]: whether the other ones return *)
      match finish pyfloat (w_proc w) o tb drv duration time_end true with
      | Err _ => with_proc w (do_event pyfloat (w_proc w) (Finish o tb drv duration time_end callbacks))
      | Ok _ =>
          if lg_registered (w_log w) then
            let (w', r) := end_of_config w in
            with_proc w' (do_event pyfloat (w_proc w) (Finish o tb drv duration time_end (callbacks && is_ok r)))
          else with_proc w (do_event pyfloat (w_proc w) (Finish o tb drv duration time_end callbacks))
      end
  | TChain e => with_proc w (do_event pyfloat (w_proc w) e)
  | TLog a => fst (log a w)
  | TEnable => set_disabled false w
  | TDisable => set_disabled true w
  | TOther d => mkTW (w_proc w) (w_log w) (d :: w_tb w) (w_events w)
  end.
Definition trun (w : tworld) (es : list tevent) : tworld := fold_left do_tevent es w.
Definition tstart : tworld := mkTW start new_logger [] [].
End Run.

(** ** Grids of images (tensorboard_eval.py:156-193 _make_grid, called at 355-356) *)
(** The rows and columns of the grid that an image fills, from the first to before the last *)
Record place : Type := mkGP { gp_top : nat; gp_bottom : nat; gp_left : nat; gp_right : nat }.
(** tensorboard_eval.py:172-173; [math.ceil(float(batch_size) / x_mapping)] is exact below 2^53 *)
Definition grid_columns (nrow batch : nat) : nat := Nat.min nrow batch.
Definition grid_rows (nrow batch : nat) : nat := (batch + grid_columns nrow batch - 1) / grid_columns nrow batch.
(** tensorboard_eval.py:176-192: height and width of the grid, and the places of the images 0, 1, ...
    ([padding] is 2); no columns is a ZeroDivisionError, here RuntimeError *)
Definition make_grid (nrow batch height width : nat) : res (nat * nat * list place) :=
  if Nat.eqb (grid_columns nrow batch) 0 then Err RuntimeError
  else Ok ((height + 2) * grid_rows nrow batch + 2, (width + 2) * grid_columns nrow batch + 2,
           firstn batch
             (flat_map (fun y => map (fun x =>
                mkGP (y * (height + 2) + 2) (y * (height + 2) + 2 + (height + 2) - 2)
                     (x * (width + 2) + 2) (x * (width + 2) + 2 + (width + 2) - 2)) (seq 0 (grid_columns nrow batch)))
              (seq 0 (grid_rows nrow batch)))).
