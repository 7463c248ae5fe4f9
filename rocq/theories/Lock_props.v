(** Properties C126 and C127: environment variables and waiting for locks. *)
From Coq Require Import String Ascii.
From Verif Require Import Py Py_proofs Limit_spec Lock_model Lock_spec Lock_proofs.
Local Open Scope string_scope.
Local Open Scope list_scope.

(** ** C126 *)
(** Every setting is what its own variable says, or the default if it is not set. *)
Theorem settings_loaded : forall float_of_text environ,
  (forall key k e, setting key k -> lookup key environ = Some e -> exists v, reads float_of_text k e v) ->
  exists l, load float_of_text environ variables = Ok l /\ NoDup (map fst l) /\ (forall key v, In (key, v) l -> exists k, setting key k) /\ forall key k, setting key k ->
    exists v, lookup key l = Some v /\ ((lookup key environ = None /\ default_setting k v) \/ exists e, lookup key environ = Some e /\ reads float_of_text k e v).
Proof.
  intros ft environ H. destruct (load_ok ft environ variables variables_nodup) as (l & E & F & L); [intros key k e I; apply H, settings_p, I|]. exists l. split; [exact E|].
  split; [rewrite F; exact variables_nodup|]. split.
  - intros key v I. apply (in_map fst) in I. rewrite F in I. apply in_map_iff in I. destruct I as ([key' k] & X & I). exists k. apply settings_p. cbn in X. subst key'. exact I.
  - intros key k S. destruct (L key k (proj1 (settings_p key k) S)) as (v & LV & [[N ->]|R]); exists v || exists (default_of k); (split; [exact LV|]); [left; split; [exact N|apply default_p]|right; exact R].
Qed.
Print Assumptions settings_loaded.
(** [float] of some texts *)
Definition some_floats (s : string) : res fl :=
  if String.eqb s "1" then Ok (fl_of_Z 1) else if String.eqb s "inf" then Ok FPInf else if String.eqb s "nan" then Ok FNaN else Err ValueError.
Example settings_loaded_ex : exists l, load some_floats [("HOME", "/root"); ("NEPS_TRIAL_FILELOCK_TIMEOUT", "NuLL"); ("NEPS_TRIAL_FILELOCK_POLL", "1")] variables = Ok l /\
  lookup "NEPS_TRIAL_FILELOCK_TIMEOUT" l = Some None /\ lookup "NEPS_TRIAL_FILELOCK_POLL" l = Some (Some (fl_of_Z 1)) /\
  lookup "NEPS_GLOBAL_ERR_FILELOCK_TIMEOUT" l = Some (Some (fl_of_Z 120)) /\ null_text "NuLL".
Proof.
  eexists. split; [reflexivity|]. split; [reflexivity|]. split; [reflexivity|]. split; [reflexivity|]. apply nullable_iff. reflexivity.
Qed.
(** If one of them cannot be read, the package cannot be imported. *)
Theorem malformed_setting : forall float_of_text environ key k e, setting key k -> lookup key environ = Some e ->
  (forall v, ~ reads float_of_text k e v) -> forall l, load float_of_text environ variables <> Ok l.
Proof. intros ft environ key k e S. apply settings_p in S. exact (load_bad ft environ variables key k e S). Qed.
Print Assumptions malformed_setting.
(** "none" is a setting of the time limits only. *)
Theorem poll_none_refuted : exists environ, lookup "NEPS_TRIAL_FILELOCK_POLL" environ = Some "none" /\ null_text "none" /\ load some_floats environ variables = Err ValueError.
Proof. exists [("NEPS_TRIAL_FILELOCK_POLL", "none")]. split; [reflexivity|]. split; [apply nullable_iff; reflexivity|reflexivity]. Qed.
Print Assumptions poll_none_refuted.

(** ** C127 *)
(** A lock is only taken when it is free. *)
Theorem acquired_when_free : forall tick interval free late, (0 < tick)%Z -> (forall i, (0 <= late i)%Z) ->
  forall fuel timeout fail start t, lock tick interval free late fuel timeout fail start = Acquired t -> free t = true /\ (start <= t)%Z.
Proof. exact lock_acquired. Qed.
Print Assumptions acquired_when_free.
(** held by others until 4 *)
Definition until4 (t : Z) : bool := Z.leb 4 t.
Example acquired_when_free_ex : lock 1 3 until4 (fun _ => 0%Z) 9 (Some (FZ 20)) false 0 = Acquired 6 /\ until4 6 = true.
Proof. split; reflexivity. Qed.
(** It is given up after the time limit at the earliest. *)
Theorem not_given_up_early : forall tick interval free late fuel d start t,
  lock tick interval free late fuel (Some (FZ d)) false start = Failed t -> (d <= t - start)%Z.
Proof. exact lock_failed. Qed.
Print Assumptions not_given_up_early.
Example not_given_up_early_ex : lock 1 3 (fun _ => false) (fun _ => 0%Z) 9 (Some (FZ 7)) false 0 = Failed 9.
Proof. reflexivity. Qed.
(** It is taken at most one interval (and delay) after it got free for good, if this is within the limit. *)
Theorem taken_in_time : forall tick interval free late, (0 < tick)%Z -> (forall i, (0 <= late i)%Z) -> forall f lmax d start,
  (forall t, (f <= t)%Z -> free t = true) -> (forall i, (late i <= lmax)%Z) -> (start <= f)%Z ->
  (f - start + Z.max tick interval + lmax < d)%Z ->
  exists fuel t, lock tick interval free late fuel (Some (FZ d)) false start = Acquired t /\ (t <= f + Z.max tick interval + lmax)%Z.
Proof. exact lock_timely. Qed.
Print Assumptions taken_in_time.
Example taken_in_time_ex : (forall t, (4 <= t)%Z -> until4 t = true) /\ (4 - 0 + Z.max 1 3 + 0 < 20)%Z.
Proof. split; [intros t H; apply Z.leb_le, H|reflexivity]. Qed.
(** With a finite limit the waiting ends; with an infinite one it is never given up. *)
Theorem waiting_ends : forall tick interval free late, (0 < tick)%Z -> (forall i, (0 <= late i)%Z) ->
  forall d fail start, exists fuel, lock tick interval free late fuel (Some (FZ d)) fail start <> Waiting.
Proof. exact lock_ends. Qed.
Print Assumptions waiting_ends.
Theorem never_given_up : forall tick interval free late fuel start t, lock tick interval free late fuel (Some FPInf) false start <> Failed t.
Proof. exact lock_inf. Qed.
Print Assumptions never_given_up.
Example never_given_up_ex : lock 1 3 until4 (fun _ => 0%Z) 9 (Some FPInf) false 0 = Acquired 6.
Proof. reflexivity. Qed.
(** The limit "none" is 5 seconds: a lock that gets free later is given up. *)
Theorem no_limit_refuted : exists tick interval free late fuel start t f, (0 < tick)%Z /\ (forall i, late i = 0%Z) /\
  (forall t, (f <= t)%Z -> free t = true) /\ lock tick interval free late fuel None false start = Failed t.
Proof.
  exists 1%Z, fl_unit, (fun t => Z.leb (6 * fl_unit) t), (fun _ => 0%Z), 10%nat, 0%Z. eexists. exists (6 * fl_unit)%Z.
  split; [reflexivity|]. split; [reflexivity|]. split; [intros t H; apply Z.leb_le, H|]. lazy. reflexivity.
Qed.
Print Assumptions no_limit_refuted.
(** The limit NaN, which can be set, is none at all: one attempt. *)
Theorem nan_limit : forall tick interval free late fuel start, free start = false -> lock tick interval free late (S fuel) (Some FNaN) false start = Failed start.
Proof. exact lock_nan. Qed.
Print Assumptions nan_limit.
Theorem nan_limit_refuted : exists environ l fuel, load some_floats environ variables = Ok l /\ lookup "NEPS_TRIAL_FILELOCK_TIMEOUT" l = Some (Some FNaN) /\
  lock 1 3 until4 (fun _ => 0%Z) fuel (Some FNaN) false 3 = Failed 3.
Proof. exists [("NEPS_TRIAL_FILELOCK_TIMEOUT", "nan")]. eexists. exists 1%nat. split; [reflexivity|]. split; reflexivity. Qed.
Print Assumptions nan_limit_refuted.
(** is_locked tells whether somebody holds the lock now, without waiting. *)
Theorem is_locked_true : forall tick interval free late fuel ex timeout now, is_locked tick interval free late fuel ex timeout now = Some (ex && negb (free now)).
Proof. exact is_locked_p. Qed.
Print Assumptions is_locked_true.
Example is_locked_ex : is_locked 1 3 until4 (fun _ => 0%Z) 9 true None 3 = Some true /\ is_locked 1 3 until4 (fun _ => 0%Z) 9 true None 4 = Some false.
Proof. split; reflexivity. Qed.
