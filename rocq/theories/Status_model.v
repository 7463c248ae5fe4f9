(** Status of a run: neps/status/status.py and neps/utils/types.py:61-74. *)
From Verif Require Import Py Trial_model.

(** neps/utils/types.py:61-69 _ConfigResultForStats *)
Record stats : Type := mkStats {
  x_id : string; x_config : dict; x_result : result_or_error; x_meta : metadata }.

(** Result of get_summary_dict (with add_details). *)
Record summary : Type := mkSummary {
  s_previous : list (string * stats);
  s_pending : list (string * dict);               (* pending_configs *)
  s_free : list (string * dict);                  (* pending_configs_free *)
  s_num_evaluated : nat;
  s_num_pending : nat;
  s_num_pending_with_worker : nat;
  s_best_loss : fl;
  s_best : option (string * dict * metadata);     (* id, config, metadata *)
  s_num_error : nat }.

(** [trial.State == Trial.State.X] (status.py:60, 65): the class attribute [State] is
    the enum class itself (trial.py:130), which is equal to none of its members. *)
Definition State_class_is (t : trial) (x : tstate) : bool := false.

(** {trial.id: trial.config for trial in ... if trial.State == X} (status.py:57-66) *)
Definition with_state (x : tstate) (ts : list trial) : list (string * dict) :=
  fold_left (fun acc t => if State_class_is t x then set_key (t_id t) (t_config t) acc else acc) ts [].

Section Status.
Variable pyfloat : pyval -> res fl.

(** status.py:44-55 *)
Fixpoint collect (ts : list trial) (acc : list (string * stats)) : res (list (string * stats)) :=
  match ts with
  | [] => Ok acc
  | t :: ts' =>
      match t_report t with
      | None => collect ts' acc
      | Some r =>
          bind (to_deprecate_result_dict r) (fun d =>
            collect ts' (set_key (t_id t) (mkStats (t_id t) (t_config t) d (t_meta t)) acc))
      end
  end.

(** types.py:71-74 loss: a float, or ["error"] (None) *)
Definition loss_of (x : stats) : res (option fl) :=
  match x_result x with
  | ResDict d =>
      match lookup "loss" d with
      | None => Err KeyError
      | Some v => bind (pyfloat v) (fun f => Ok (Some f))
      end
  | ResError => Ok None
  end.

(** status.py:80-93 *)
Fixpoint scan (xs : list (string * stats)) (best_loss : fl) (best : option (string * dict * metadata))
  (errors : nat) : res (fl * option (string * dict * metadata) * nat) :=
  match xs with
  | [] => Ok (best_loss, best, errors)
  | (_, x) :: xs' =>
      let errors' := match x_result x with ResError => S errors | _ => errors end in
      bind (loss_of x) (fun l =>
        match l with
        | Some l => if fl_ltb l best_loss
                    then scan xs' l (Some (x_id x, x_config x, x_meta x)) errors'
                    else scan xs' best_loss best errors'
        | None => scan xs' best_loss best errors'
        end)
  end.

(** status.py:20-95 get_summary_dict; [ts]: the values of get_all_trials(), in any order *)
Definition get_summary (ts : list trial) : res summary :=
  bind (collect ts []) (fun evaluated =>
    let in_progress := with_state EVALUATING ts in
    let pending := with_state PENDING ts in
    bind (scan evaluated FPInf None 0) (fun '(bl, b, e) =>
      Ok (mkSummary evaluated (merge_dict in_progress pending) pending (List.length evaluated)
            (List.length in_progress + List.length pending) (List.length in_progress) bl b e))).

(** ** CSV files *)

(** The two files of summary_csv: rows of config_data.csv and the values of
    run_status.csv that are looked at. *)
Record csv : Type := mkCsv { c_rows : list (string * stats); c_evaluated : nat }.

(** [config_data_df.sort_values(by="result.loss")] (status.py:310): KeyError when there is
    no such column, i.e. no result is a dictionary.  The order of the rows is not
    modelled. *)
Definition sort_rows (s : summary) : res (list (string * stats)) :=
  if existsb (fun x => match x_result (snd x) with ResDict _ => true | _ => false end) (s_previous s)
  then Ok (s_previous s) else Err KeyError.

(** status.py:310-315 and the two copies of it: both files are rewritten *)
Definition rewrite (s : summary) : res csv :=
  bind (sort_rows s) (fun rows => Ok (mkCsv rows (s_num_evaluated s))).

(** status.py:282-347 _save_data_to_csv, under the lock; any exception comes out as a
    RuntimeError. *)
Definition save_csv (f : option csv) (s : summary) : option csv * res unit :=
  let first :=
    if Nat.eqb (s_num_pending s) 0 && Nat.eqb (s_num_pending_with_worker s) 0
    then match rewrite s with Ok c => Ok (Some c) | Err e => Err e end
    else Ok f in
  match first with
  | Err _ => (f, Err RuntimeError)
  | Ok f1 =>
      let write := match rewrite s with Ok c => (Some c, Ok tt) | Err _ => (f1, Err RuntimeError) end in
      match f1 with
      | Some c => if Nat.ltb (c_evaluated c) (s_num_evaluated s) then write else (f1, Ok tt)
      | None => write
      end
  end.

(** status.py:350-377 post_run_csv, one process alone *)
Definition post_run_csv (f : option csv) (ts : list trial) : option csv * res unit :=
  match get_summary ts with
  | Err e => (f, Err e)
  | Ok s => save_csv f s
  end.

(** Several workers: the summary is computed without lock, written later under it.
    [Evolve]: the stored trials change. *)
Inductive cevent : Type := Evolve (ts : list trial) | Snap (k : nat) | Save (k : nat).
Record cworld : Type := mkCW { w_trials : list trial; w_snap : nat -> option summary; w_csv : option csv }.
Definition cstep (w : cworld) (e : cevent) : cworld :=
  match e with
  | Evolve ts => mkCW ts (w_snap w) (w_csv w)
  | Snap k => mkCW (w_trials w)
                (upd (w_snap w) k (match get_summary (w_trials w) with Ok s => Some s | Err _ => None end))
                (w_csv w)
  | Save k => match w_snap w k with
              | Some s => mkCW (w_trials w) (upd (w_snap w) k None) (fst (save_csv (w_csv w) s))
              | None => w
              end
  end.
Definition crun (w : cworld) (es : list cevent) : cworld := fold_left cstep es w.

End Status.
