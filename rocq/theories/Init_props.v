(** Property C18. *)
From Verif Require Import Py Fs_model Fs_spec Init_model Init_spec Init_proofs.

Definition ix_args : args :=
  mkArgs [("searcher_name", VStr "random_search"); ("seed", VInt 3); ("eta", VFloat (FZ 8))]
    (mkSeed [5; 6]%Z [("np_pos", VInt 7)] [8]%Z)
    (mkOpt (Some (mkBudget None (FZ 0) (Some 9%Z) 0)) []).
Definition ix_other : args :=
  mkArgs [("searcher_name", VStr "grid_search")] (a_seed ix_args) (a_opt ix_args).
Lemma ix_plain : plain_info (a_info ix_args).
Proof. split; [repeat constructor|vm_compute; reflexivity]. Qed.
Definition ix_state : nstate := mkNS (a_info ix_args) (a_seed ix_args) [] (a_opt ix_args).

(** C18: opening a directory that does not exist. *)
Theorem first_opening_creates_state : forall a n, plain (VDict (a_info a)) ->
  outcome no_fs a n = Ok (mkNS (a_info a) (a_seed a) [] (a_opt a)) /\
  holds_state (opened no_fs a n) (mkNS (a_info a) (a_seed a) [] (a_opt a)).
Proof. exact first_opening_lemma. Qed.
Print Assumptions first_opening_creates_state.

(** C18: opening a complete state (whatever its contents are by now) with an equal
    description succeeds, gives the stored state and changes nothing; hence so do all
    further openings. *)
Theorem reopening_changes_nothing : forall x r a n,
  holds_state x r -> py_eqb (VDict (n_info r)) (VDict (a_info a)) = true ->
  outcome x a n = Ok r /\ opened x a n = x.
Proof. exact reopen_lemma. Qed.
Print Assumptions reopening_changes_nothing.

(** ... and so does loading without a description. *)
Theorem loading_gives_stored_state : forall x r, holds_state x r -> load_state x = Ok r.
Proof. exact load_state_lemma. Qed.
Print Assumptions loading_gives_stored_state.

(** C18: another description is refused and nothing changes. *)
Theorem other_description_refused : forall x a n i, d_exists x = true -> f_info x = Full i ->
  py_eqb (VDict i) (VDict (a_info a)) = false ->
  outcome x a n = Err NePSError /\ opened x a n = x.
Proof. exact mismatch_lemma. Qed.
Print Assumptions other_description_refused.
Example opening_example :
  let x := opened no_fs ix_args 1 in
  plain_info (a_info ix_args) /\ holds_state x ix_state /\
  py_eqb (VDict (n_info ix_state)) (VDict (a_info ix_args)) = true /\
  py_eqb (VDict (a_info ix_args)) (VDict (a_info ix_other)) = false.
Proof.
  split; [exact ix_plain|]. split; [apply first_opening_lemma, ix_plain|].
  split; vm_compute; reflexivity.
Qed.

(** C18 after a crash: the process that opens the directory first is killed after [k]
    file operations.  A later opening with the same description succeeds exactly for
    these [k]; otherwise it fails (and so does every further one, as nothing changes). *)
Theorem opening_after_crash_succeeds_iff : forall a n k a' n',
  plain_info (a_info a) -> a_info a' = a_info a ->
  is_ok (outcome (open_killed no_fs a n k) a' n') = true <->
  (k = 0 \/ k = 5 \/ k = 12 \/ k = 13 \/ k = 16 \/ k = 17 \/ 21 <= k).
Proof. exact killed_lemma. Qed.
Print Assumptions opening_after_crash_succeeds_iff.
Theorem opening_after_crash_refuted : exists k,
  outcome (open_killed no_fs ix_args 1 k) ix_args 2 = Err FileNotFoundError.
Proof. exists 1. reflexivity. Qed.
Print Assumptions opening_after_crash_refuted.
(** Even when it succeeds the state may be damaged: killed after 12 operations, numpy's
    random state is read as empty. *)
Theorem opening_after_crash_state_refuted : exists k r,
  outcome (open_killed no_fs ix_args 1 k) ix_args 2 = Ok r /\
  s_np (n_seed r) = [] /\ s_np (a_seed ix_args) <> [].
Proof. exists 12. eexists. split; [vm_compute; reflexivity|]. split; [reflexivity|discriminate]. Qed.
Print Assumptions opening_after_crash_state_refuted.

(** C18: an existing but empty directory (e.g. made by the user) cannot be used. *)
Theorem opening_directory_without_info_fails : forall x a n,
  d_exists x = true -> f_info x = Absent -> outcome x a n = Err FileNotFoundError.
Proof. exact no_info_lemma. Qed.
Print Assumptions opening_directory_without_info_fails.
Theorem opening_empty_directory_refuted : exists x a n,
  d_exists x = true /\ f_info x = Absent /\ outcome x a n = Err FileNotFoundError.
Proof. exists (do_iop no_fs IMkdir), ix_args, 1. split; [|split]; reflexivity. Qed.
Print Assumptions opening_empty_directory_refuted.

(** C18: a description with a tuple is refused when it is used again (it is stored as a
    list). *)
Theorem same_description_accepted_refuted : exists a, is_ok (outcome no_fs a 1) = true /\
  outcome (opened no_fs a 1) a 2 = Err NePSError.
Proof.
  exists (mkArgs [("weights", VTuple [VInt 1; VInt 2])] (a_seed ix_args) (a_opt ix_args)).
  split; vm_compute; reflexivity.
Qed.
Print Assumptions same_description_accepted_refuted.

(** C18 under races: any number of processes with the same description open the
    directory for the first time, in any interleaving.
    (1) Those that look before anybody created the directory never fail. *)
Theorem racing_first_opener_never_fails : forall a i0, plain_info i0 -> (forall w, a_info (a w) = i0) ->
  forall ws1 w ws2, c_pc (crun a c_init ws1) w = PCheck ->
  d_exists (c_fs (crun a c_init ws1)) = false ->
  not_failed (c_pc (crun a c_init (ws1 ++ w :: ws2)) w).
Proof. exact early_lemma. Qed.
Print Assumptions racing_first_opener_never_fails.
(** (2) Those that start after the description is on disk never fail. *)
Theorem racing_late_opener_never_fails : forall a i0, plain_info i0 -> (forall w, a_info (a w) = i0) ->
  forall ws1 w ws2, c_pc (crun a c_init ws1) w = PCheck ->
  f_info (c_fs (crun a c_init ws1)) = Full i0 ->
  not_failed (c_pc (crun a c_init (ws1 ++ ws2)) w).
Proof. exact late_lemma. Qed.
Print Assumptions racing_late_opener_never_fails.
(** (3) All that succeed hold the same state. *)
Theorem racing_openers_agree : forall a i0, plain_info i0 -> (forall w, a_info (a w) = i0) ->
  forall ws w1 w2 r1 r2, c_pc (crun a c_init ws) w1 = PDone r1 ->
  c_pc (crun a c_init ws) w2 = PDone r2 -> r1 = r2 /\ n_info r1 = i0 /\ n_err r1 = [].
Proof. exact agree_lemma. Qed.
Print Assumptions racing_openers_agree.
(** (4) Whoever fails, fails because the description was not there or not complete. *)
Theorem racing_openers_fail_only_on_missing_info : forall a i0, plain_info i0 -> (forall w, a_info (a w) = i0) ->
  forall ws w e, c_pc (crun a c_init ws) w = PFail e -> e = FileNotFoundError \/ e = TypeError.
Proof. exact fail_lemma. Qed.
Print Assumptions racing_openers_fail_only_on_missing_info.
Example racing_example :
  let a := fun _ : nat => ix_args in
  plain_info (a_info ix_args) /\
  c_pc (crun a c_init [0; 1; 1]) 0 = PMkdir true /\
  c_pc (crun a c_init ([0; 1; 0; 1; 1; 0] ++ repeat 1 9 ++ repeat 0 9)) 0 = PDone ix_state /\
  c_pc (crun a c_init ([0; 1; 0; 1; 1; 0] ++ repeat 1 9 ++ repeat 0 9)) 1 = PDone ix_state.
Proof. split; [exact ix_plain|]. split; [reflexivity|]. split; vm_compute; reflexivity. Qed.
(** (5) They do fail: a process that looks between the creation of the directory and
    the writing of the description. *)
Theorem racing_first_opening_refuted : exists ws,
  c_pc (crun (fun _ => ix_args) c_init ws) 1 = PFail FileNotFoundError.
Proof. exists [0; 0; 1; 1; 1]. reflexivity. Qed.
Print Assumptions racing_first_opening_refuted.
