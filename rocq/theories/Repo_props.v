(** Properties C16, C20, C21, C22. *)
From Coq Require Import Sorted.
From Verif Require Import Py Trial_model Fs_model Fs_spec Repo_model Repo_spec Repo_proofs.

Definition rx_new (id : string) (time : Z) : trial :=
  trial_new id [("x", VFloat (FZ time))] "" None None (FZ time) "w".
Definition rx_start (t : trial) : trial := set_evaluating t (FZ 9) "w1".
(** Two workers sample three trials; one trial is claimed. *)
Definition rx_ops : list rop :=
  [RPutNew 0 (rx_new "2" 7); RPutNew 1 (rx_new "1" 3); RNext 0; RPutNew 0 (rx_new "3" 5);
   RUpdate 1 "1" rx_start; RKilledNew 2 (rx_new "4" 6) (Some 8); RRestart 1].
Lemma rx_proper id time : ~ contains "config_" id -> proper_new (rx_new id time).
Proof. intros C. split; [split; [repeat constructor|discriminate]|]. split; [exact C|]. split; [reflexivity|discriminate]. Qed.
Lemma rx_one c : ~ contains "config_" (String c "").
Proof. intros (a & b & E). destruct a as [|x [|y a]]; simpl in E; discriminate. Qed.
Lemma rx_start_proper : proper_update rx_start.
Proof. intros t. split; [intros H; exact H|]. auto. Qed.
Lemma rx_ops_proper : Forall proper_op rx_ops.
Proof.
  pose proof (fun c z => rx_proper _ z (rx_one c)) as P.
  constructor; [apply P|]. constructor; [apply P|]. constructor; [exact I|]. constructor; [apply P|].
  constructor; [exact rx_start_proper|]. constructor; [split; [apply P|simpl; auto]|].
  constructor; [exact I|constructor].
Qed.

(** C20: which ids survive the encoding as directory name. *)
Theorem directory_name_gives_back_id_iff : forall id,
  drop_config 0 ("config_" ++ id) = id <-> ~ contains "config_" id.
Proof. exact drop_dirname_iff. Qed.
Print Assumptions directory_name_gives_back_id_iff.

(** C20, for ids without "config_" (all optimizers of this code base use numbers, and
    numbers joined by "_"): after any history of operations by any number of processes,
    the listed ids are exactly those put, and every process can fetch each of them. *)
Theorem listed_ids_are_the_put_ids_partial : forall root os, Forall proper_op os ->
  let s := rrun root r_init os in
  (forall id, In id (all_trial_ids (r_disk s)) <-> In id (put_ids os)) /\
  (forall w id, In id (put_ids os) -> exists c h, get_by_id (r_disk s) (r_cache s w) id = (c, Ok h)).
Proof. exact listed_ids_lemma. Qed.
Print Assumptions listed_ids_are_the_put_ids_partial.
Example listed_ids_example : Forall proper_op rx_ops /\
  all_trial_ids (r_disk (rrun "r" r_init rx_ops)) = ["2"; "1"; "3"; "4"].
Proof. split; [exact rx_ops_proper|reflexivity]. Qed.

(** C20 is false for ids that contain "config_": such a trial is listed under another
    id, fetching fails, and with it the listing of all trials (for every later worker). *)
Theorem listed_ids_refuted : exists t : trial,
  let s := rrun "r" r_init [RPutNew 0 t] in
  plain_trial t /\ snd (put_new "r" [] [] t 0) <> Err TypeError /\
  ~ In (t_id t) (all_trial_ids (r_disk s)) /\
  all_of s 0 = Err TrialNotFoundError /\ next_pending_of s 1 = Err TrialNotFoundError.
Proof.
  exists (rx_new "my_config_1" 3). split; [split; [repeat constructor|discriminate]|].
  split; [discriminate|]. split; [intros [E|[]]; discriminate E|]. split; reflexivity.
Qed.
Print Assumptions listed_ids_refuted.

(** C21: an existing id is refused and nothing changes. *)
Theorem put_new_refuses_existing_id : forall root (d : disk) c t n x,
  lookup (dirname (t_id t)) d = Some x ->
  put_new root d c t n = (d, c, Err TrialAlreadyExistsError).
Proof. exact put_new_exists_lemma. Qed.
Print Assumptions put_new_refuses_existing_id.

(** C21: a new id is stored (with its location filled in), all else stays. *)
Theorem put_new_stores_new_id : forall root (d : disk) c t n,
  lookup (dirname (t_id t)) d = None -> plain_trial t -> t_report t = None ->
  exists d' c' h, put_new root d c t n = (d', c', Ok h) /\ th_current h = located root t /\
    stored d' (t_id t) (located root t) /\
    (forall id, id <> t_id t -> lookup (dirname id) d' = lookup (dirname id) d).
Proof. exact put_new_fresh_lemma. Qed.
Print Assumptions put_new_stores_new_id.
Example put_new_example :
  let s := rrun "r" r_init rx_ops in
  put_new_of "r" s 5 (rx_new "3" 8) = Err TrialAlreadyExistsError /\
  lookup (dirname "5") (r_disk s) = None /\ is_ok (put_new_of "r" s 5 (rx_new "5" 8)) = true.
Proof. split; [|split]; reflexivity. Qed.

(** C22: after any history, in a quiescent moment, every process is handed a pending
    trial with the smallest sampling time, and none if there is none. *)
Theorem next_pending_is_oldest : forall root os w, Forall proper_op os ->
  let s := rrun root r_init os in
  exists o, next_pending_of s w = Ok o /\
    match o with
    | Some t => stored (r_disk s) (t_id t) t /\ t_state t = PENDING /\
        forall id t', stored (r_disk s) id t' -> t_state t' = PENDING ->
          fl_ltb (m_time_sampled (t_meta t')) (m_time_sampled (t_meta t)) = false
    | None => forall id t', stored (r_disk s) id t' -> t_state t' <> PENDING
    end.
Proof. exact next_pending_lemma. Qed.
Print Assumptions next_pending_is_oldest.
Theorem pending_lists_exactly_pending_in_order : forall root os w, Forall proper_op os ->
  let s := rrun root r_init os in
  exists ids, pending_of s w = Ok ids /\ NoDup ids /\
    (forall id, In id ids <-> exists t, stored (r_disk s) id t /\ t_state t = PENDING) /\
    StronglySorted (fun a b => forall ta tb, stored (r_disk s) a ta -> stored (r_disk s) b tb ->
       fl_ltb (m_time_sampled (t_meta tb)) (m_time_sampled (t_meta ta)) = false) ids.
Proof. exact pending_lemma. Qed.
Print Assumptions pending_lists_exactly_pending_in_order.
Theorem get_all_trials_is_what_is_stored : forall root os w, Forall proper_op os ->
  let s := rrun root r_init os in
  exists l, all_of s w = Ok l /\ NoDup (map t_id l) /\
    (forall t, In t l <-> stored (r_disk s) (t_id t) t).
Proof. exact all_lemma. Qed.
Print Assumptions get_all_trials_is_what_is_stored.
Example pending_example : Forall proper_op rx_ops /\
  pending_of (rrun "r" r_init rx_ops) 3 = Ok ["3"; "4"; "2"].
Proof. split; [exact rx_ops_proper|reflexivity]. Qed.

(** C16: killed during the creation of a trial, before the state file is written:
    whatever happens afterwards (other trials created, workers restarted, ...) no
    process can ever again list the trials or get a pending one, and the id cannot be
    reused either.  With [harmless] kills all theorems above apply, so this is an exact
    characterisation. *)
Theorem killed_while_creating_blocks_for_ever : forall root os w t k,
  Forall proper_op os -> proper_new t -> ~ In (t_id t) (put_ids os) -> k < 8 ->
  forall os' w', let s := rrun root (rrun root r_init (os ++ [RKilledNew w t (Some k)])) os' in
    (exists e, next_pending_of s w' = Err e) /\ (exists e, all_of s w' = Err e) /\
    put_new_of root s w' t = Err TrialAlreadyExistsError.
Proof. exact killed_blocks_lemma. Qed.
Print Assumptions killed_while_creating_blocks_for_ever.
Theorem crash_while_creating_never_blocks_refuted : exists root os w t k w',
  Forall proper_op os /\ proper_new t /\
  forall os', exists e, all_of (rrun root (rrun root r_init (os ++ [RKilledNew w t (Some k)])) os') w' = Err e.
Proof.
  exists "r", rx_ops, 0, (rx_new "9" 4), 0, 1. split; [exact rx_ops_proper|].
  split; [apply rx_proper, rx_one|]. intros os'.
  apply (killed_blocks_lemma "r" rx_ops 0 (rx_new "9" 4) 0 rx_ops_proper (rx_proper _ _ (rx_one _))).
  - intros [E|[E|[E|[E|[]]]]]; discriminate E.
  - auto with arith.
Qed.
Print Assumptions crash_while_creating_never_blocks_refuted.
