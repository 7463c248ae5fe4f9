(** Properties C16 (one directory), C17, C19. *)
From Verif Require Import Py Trial_model Fs_model Fs_spec Fs_proofs.

Definition fx_meta (st : option fl) : metadata :=
  mkMeta "3" "/r/configs/config_3" (Some "2") (Some "/r/configs/config_2") "w" (FZ 1)
    (match st with Some _ => Some "w2" | None => None end) None None st None.
Definition fx_new : trial := mkTrial [("lr", VFloat (FZ 4)); ("opt", VStr "adam")] (fx_meta None) PENDING None.
Definition fx_eval : trial := mkTrial (t_config fx_new) (fx_meta (Some (FZ 2))) EVALUATING None.
Definition fx_report : report :=
  mkReport "3" (Some (FZ 9)) None (Some [FZ 9]) [("acc", VList [VInt 1])] None None RSuccess (Some (FZ 5)).
Definition fx_done : trial := mkTrial (t_config fx_new) (fx_meta (Some (FZ 2))) SUCCESS (Some fx_report).
Definition fx_dir (t : trial) (n : nat) : tdir :=
  mkDir (Full n) (Full (t_config t)) (Full (t_meta t)) (Full (t_state t)) (Full "2")
    (match t_report t with Some r => Full r | None => Absent end).
Lemma fx_plain_done : plain_trial fx_done.
Proof.
  split.
  - repeat constructor.
  - intros r E. inversion E. repeat constructor.
Qed.
Lemma fx_plain_new : plain_trial fx_new.
Proof. split; [repeat constructor|discriminate]. Qed.
Lemma fx_holds t n : holds (fx_dir t n) t n.
Proof. constructor; reflexivity. Qed.

(** C19: writing a trial and reading it back gives the trial, for all trials of plain
    data (no tuples or foreign objects), whatever was in the directory before, unless
    the trial has no report but the directory has one. *)
Theorem stored_trial_reads_back_partial : forall (x : tdir) (t : trial),
  plain_trial t -> (t_report t = None -> f_report x = Absent) ->
  snd (write_trial t) = None /\ read_trial (complete x (write_trial t)) = Ok t.
Proof. exact write_read_lemma. Qed.
Print Assumptions stored_trial_reads_back_partial.
Example stored_trial_example : plain_trial fx_done /\
  (t_report fx_done = None -> f_report empty_dir = Absent) /\ fx_done <> fx_new.
Proof. split; [exact fx_plain_done|]. split; [reflexivity|discriminate]. Qed.

(** C19 is false for tuples (they come back as lists, which compare unequal). *)
Theorem stored_tuple_reads_back_refuted : exists t t' : trial,
  snd (write_trial t) = None /\ read_trial (complete empty_dir (write_trial t)) = Ok t' /\
  py_eqb (VDict (t_config t)) (VDict (t_config t')) = false.
Proof.
  exists (mkTrial [("kernel", VTuple [VInt 3; VInt 3])] (fx_meta None) PENDING None). eexists.
  split; [reflexivity|]. split; reflexivity.
Qed.
Print Assumptions stored_tuple_reads_back_refuted.

(** C19 is false for a trial without report stored over one with a report (e.g. after
    reset): the old report comes back. *)
Theorem stored_without_report_reads_back_refuted : exists (x : tdir) (t t' : trial) (n : nat),
  plain_trial t /\ t_report t = None /\ holds x fx_done n /\
  read_trial (complete x (write_trial t)) = Ok t' /\ t_report t' = Some fx_report.
Proof.
  exists (fx_dir fx_done 7), fx_new. eexists. exists 7.
  split; [exact fx_plain_new|]. split; [reflexivity|]. split; [apply fx_holds|].
  split; reflexivity.
Qed.
Print Assumptions stored_without_report_reads_back_refuted.

(** C19/C25: a report with an object YAML cannot write: the write raises TypeError, but
    only after the state file says "success" and the report file was emptied; from
    then on every fresh reader of this trial raises. *)
Theorem unwritable_report_poisons_trial_refuted :
  exists (x : tdir) (t : trial) (h : thandle) (n n' : nat),
    holds x fx_eval n /\ load_trial x = Ok h /\ t_state t = SUCCESS /\
    snd (put_code x h t n') = Some TypeError /\
    load_trial (complete x (put_code x h t n')) = Err TypeError.
Proof.
  exists (fx_dir fx_eval 4),
    (mkTrial (t_config fx_new) (fx_meta (Some (FZ 2))) SUCCESS
       (Some (mkReport "3" (Some (FZ 9)) None None [("model", VObj 1)] None None RSuccess None))).
  eexists. exists 4, 5.
  split; [apply fx_holds|]. split; [reflexivity|]. split; [reflexivity|]. split; reflexivity.
Qed.
Print Assumptions unwritable_report_poisons_trial_refuted.

(** A completed put leaves the directory holding exactly the new trial under the new
    version (so a directory behaves like the single cell of Store_model). *)
Theorem completed_put_stores_trial : forall (x : tdir) (t told : trial) (h : thandle) (n : nat),
  plain_trial t -> plain_trial told -> holds x told n -> th_version h = VerSha n ->
  (t_report t = None -> t_report told = None) ->
  forall n', snd (put_code x h t n') = None /\ holds (complete x (put_code x h t n')) t n'.
Proof. exact put_read_lemma. Qed.
Print Assumptions completed_put_stores_trial.

(** C16, one directory: the worker is killed after any number [k] of file operations
    while creating a trial (the directory itself exists).  The trial can be loaded,
    and is then the complete trial, exactly when the state file had been written;
    otherwise loading raises. *)
Theorem crash_while_creating : forall (t : trial) (n k : nat),
  plain_trial t -> t_report t = None ->
  let c := new_code empty_dir t n in
  let y := crash_after empty_dir c k in
  (In (FillState (t_state t)) (firstn k (fst c)) -> load_trial y = Ok (mkTH t (VerSha n))) /\
  (~ In (FillState (t_state t)) (firstn k (fst c)) -> exists e, load_trial y = Err e).
Proof. exact create_crash_lemma. Qed.
Print Assumptions crash_while_creating.
Example crash_while_creating_cases :
  let c := new_code empty_dir fx_new 0 in
  plain_trial fx_new /\
  load_trial (crash_after empty_dir c 0) = Err VersionedResourceDoesNotExistsError /\
  load_trial (crash_after empty_dir c 2) = Err FileNotFoundError /\
  load_trial (crash_after empty_dir c 3) = Err TypeError /\
  load_trial (crash_after empty_dir c 8) = Ok (mkTH fx_new (VerSha 0)).
Proof. split; [exact fx_plain_new|]. repeat split. Qed.

(** C17, if the version moved: the worker is killed after any number [k] of file
    operations while updating; if the version on disk is no longer the old one,
    every reader (fresh or holding the old version) sees the whole new trial. *)
Theorem crash_while_updating_version_moved :
  forall (x : tdir) (told tnew : trial) (n n' : nat) (h : thandle),
  plain_trial tnew -> holds x told n -> th_version h = VerSha n -> n' <> n ->
  (t_report tnew = None -> t_report told = None) ->
  forall k, let y := crash_after x (put_code x h tnew n') k in
  ver_current (f_version y) <> Some (VerSha n) ->
  (exists v, load_trial y = Ok (mkTH tnew v)) /\
  (forall h', th_version h' = VerSha n -> exists v, sync_trial y h' = Ok (mkTH tnew v)).
Proof. exact update_moved_lemma. Qed.
Print Assumptions crash_while_updating_version_moved.

(** C17, if the version did not move: workers that had read the trial before keep
    seeing it as it was. *)
Theorem crash_while_updating_cached_reader_partial :
  forall (x : tdir) (tnew : trial) (n n' : nat) (h : thandle) k h',
  let y := crash_after x (put_code x h tnew n') k in
  ver_current (f_version y) = Some (VerSha n) ->
  th_version h' = VerSha n -> sync_trial y h' = Ok h'.
Proof. intros x tnew n n' h k h'. exact (update_unmoved_lemma x tnew n n' h k h'). Qed.
Print Assumptions crash_while_updating_cached_reader_partial.

(** C17, fresh readers: what they read, if they can read, consists of complete old and
    new parts; no other data appears. *)
Theorem crash_while_updating_fresh_reader_partial :
  forall (x : tdir) (told tnew : trial) (n n' : nat) (h : thandle),
  plain_trial tnew -> holds x told n -> th_version h = VerSha n -> n' <> n ->
  (t_report tnew = None -> t_report told = None) ->
  forall k t', read_trial (crash_after x (put_code x h tnew n') k) = Ok t' ->
  (t_config t' = t_config told \/ t_config t' = t_config tnew) /\
  (t_meta t' = t_meta told \/ t_meta t' = t_meta tnew) /\
  (t_state t' = t_state told \/ t_state t' = t_state tnew) /\
  (t_report t' = t_report told \/ t_report t' = t_report tnew).
Proof. exact update_mixed_lemma. Qed.
Print Assumptions crash_while_updating_fresh_reader_partial.

Example crash_while_updating_case :
  plain_trial fx_done /\ holds (fx_dir fx_eval 4) fx_eval 4 /\
  load_trial (fx_dir fx_eval 4) = Ok (mkTH fx_eval (VerSha 4)) /\
  ver_current (f_version (crash_after (fx_dir fx_eval 4)
     (put_code (fx_dir fx_eval 4) (mkTH fx_eval (VerSha 4)) fx_done 5) 11)) = Some VerEmpty.
Proof. split; [exact fx_plain_done|]. split; [apply fx_holds|]. split; reflexivity. Qed.

(** C17 is false for fresh readers: after some crash points they see a trial that is
    neither the old nor the new one (status success but no report), under the old
    version, while a worker that had it cached sees the old one; after others they
    cannot read it at all. *)
Theorem crash_while_updating_atomic_refuted :
  exists (x : tdir) (h t' : thandle) (k1 k2 : nat),
    holds x fx_eval 4 /\ load_trial x = Ok h /\
    let y1 := crash_after x (put_code x h fx_done 5) k1 in
    let y2 := crash_after x (put_code x h fx_done 5) k2 in
    load_trial y1 = Ok t' /\ th_current t' <> fx_eval /\ th_current t' <> fx_done /\
    t_state (th_current t') = SUCCESS /\ t_report (th_current t') = None /\
    th_version t' = th_version h /\ sync_trial y1 h = Ok h /\
    load_trial y2 = Err TypeError.
Proof.
  exists (fx_dir fx_eval 4), (mkTH fx_eval (VerSha 4)). eexists. exists 8, 1.
  split; [apply fx_holds|]. split; [reflexivity|]. cbv zeta. split; [reflexivity|].
  split; [discriminate|]. split; [discriminate|]. repeat split.
Qed.
Print Assumptions crash_while_updating_atomic_refuted.
