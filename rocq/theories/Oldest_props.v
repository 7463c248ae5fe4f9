(** C22: which trial a worker takes. *)
From Verif Require Import Py Trial_model Eval_model Init_model Runtime_model Runtime_spec
  Runtime_world Limit_spec Oldest_proofs.

(** C22.  After any history of any number of workers: a worker that looks for a trial
    while the others pause takes the pending trial that was sampled first, and samples a
    new one only when none is pending. *)
Theorem worker_takes_oldest_pending :
  forall {R : Type} pyfloat tid wname conf (ask : R -> list trial -> res (dict * R))
    cs b errs r nv es k xi, good_cells cs nv ->
  let s := run pyfloat tid wname conf ask (start cs b errs r nv) es in
  w_pc (s_work s k) = PGet ->
  exists m, let s' := run pyfloat tid wname conf ask s (alone k xi m) in
    (exists i t, w_pc (s_work s' k) = PRefetch i /\ trial_at s i = Some t /\ t_state t = PENDING /\
       ((forall j u, trial_at s j = Some u -> m_time_sampled (t_meta u) <> FNaN) ->
        forall j u, trial_at s j = Some u -> t_state u = PENDING ->
        fl_le (m_time_sampled (t_meta t)) (m_time_sampled (t_meta u)))) \/
    (w_pc (s_work s' k) = PSample /\ forall i t, trial_at s i = Some t -> t_state t <> PENDING).
Proof.
  intros R pyfloat tid wname conf ask cs b errs r nv es k xi G s P.
  exact (takes_oldest pyfloat tid wname conf ask k xi s
           (inv_run pyfloat tid wname conf ask cs b errs r nv es G) P).
Qed.
Print Assumptions worker_takes_oldest_pending.

(** Two pending trials; the second one was sampled first and is taken. *)
Example worker_takes_oldest_example :
  let young := mkCell 0 (trial_new "config_0" [] "" None None (FZ 8) "worker_9") in
  let old := mkCell 1 (trial_new "config_1" [] "" None None (FZ 5) "worker_9") in
  let s := w_run w_conf (w_start [young; old]) (steps 1 0 fails) in
  w_pc (s_work s 0) = PGet /\ w_pc (s_work (w_run w_conf s (steps 4 0 fails)) 0) = PRefetch 1.
Proof. vm_compute. auto. Qed.
