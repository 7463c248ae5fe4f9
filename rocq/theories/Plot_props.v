(** Properties C119-C124: plots. *)
From Coq Require Import String.
From Verif Require Import Py Py_proofs Trial_model Limit_spec Status_model Status_spec Status_proofs Space_model Plot_model Plot_spec Plot_proofs Plot_curve_proofs.
From Verif Require Ifbo_spec.
Local Open Scope nat_scope.
Local Open Scope string_scope.
Local Open Scope list_scope.
Local Notation length := List.length.

(** The plot of one run with the default options *)
Notation plot_of pyfloat divide w ts tree b a := (plot pyfloat divide (mkOptions false None false w None) (mkFiles ts tree) [b] [a]).

(** Trials for the examples: identifier, loss, entries of info_dict, previous trial, sampled, ended *)
Definition ev (id : string) (loss : Z) (i : dict) (prev : option string) (s e : Z) : trial :=
  mkTrial [] (mkMeta id "" prev None "w" (FZ s) (Some "w") None None (Some (FZ s)) (Some (FZ e))) SUCCESS
    (Some (mkReport id (Some (FZ loss)) None None [("info_dict", VDict i)] None None RSuccess None)).
Definition crashed (id : string) : trial :=
  mkTrial [] (mkMeta id "" None None "w" (FZ 0) (Some "w") None None (Some (FZ 0)) (Some (FZ 1))) CRASHED
    (Some (mkReport id None None None [] (Some "err") None RCrashed None)).
Definition waiting (id : string) : trial := mkTrial [] (mkMeta id "" None None "w" (FZ 0) None None None None None) PENDING None.
Definition pyf (v : pyval) : res fl := match v with VFloat f => Ok f | VInt z => Ok (fl_of_Z z) | _ => Err TypeError end.
Lemma pyf_id : float_id pyf. Proof. intros f. reflexivity. Qed.
Lemma ev_plain id loss i p s e r : t_report (ev id loss i p s e) = Some r -> plain_report r.
Proof.
  intros [= <-] _. cbn. repeat split; try discriminate; [repeat constructor; intros []|]. intros v [= <-]. eauto.
Qed.
Lemma ev_succ id loss i p s e : succeeded (ev id loss i p s e) (FZ loss).
Proof. eexists. split; [reflexivity|]. split; reflexivity. Qed.

Ltac proper := split; [discriminate|split;
  [repeat first [apply FOP_nil|apply FOP_cons|apply Forall_nil|apply Forall_cons]; apply ltb_lt; lazy; reflexivity
  |intros x v E; cbn [series combine sums snd fst In] in E; repeat (destruct E as [E|E]; [injection E as <- <-; split; [discriminate|eexists; lazy; reflexivity]|]); destruct E]].

(** ** C119 *)
(** Plot of a run whose trials are numbered, at least one evaluated, all with a loss: one curve, which
    over 1, 2, 3, ... shows the least loss among that many evaluations in the order of their numbers. *)
Theorem default_plot : forall pyfloat divide, float_id pyfloat -> forall w ts tree b a,
  plain_trials ts -> numbered ts -> (exists t, In t ts /\ has_report t) -> all_succeeded ts -> no_nan_loss ts ->
  exists ds c, in_order ts ds /\ plot_of pyfloat divide w ts tree b a = Ok [mkDrawn (0, 0) None (Some "Evaluations") (Some "Best error") a [c]] /\ curve_of ds c.
Proof. exact default_plot_p. Qed.
Print Assumptions default_plot.
Definition run1 : list trial := [ev "10" 3 [] None 0 1; ev "9" 7 [] None 0 1; waiting "3"; ev "2" 5 [] None 0 1].
Example default_plot_ex : (plain_trials run1 /\ numbered run1 /\ (exists t, In t run1 /\ has_report t) /\ all_succeeded run1 /\ no_nan_loss run1) /\
  plot_of pyf (fun x _ => x) 1 run1 [] "example" "neps" =
  Ok [mkDrawn (0, 0) None (Some "Evaluations") (Some "Best error") "neps" [[(fl_of_Z 1, FZ 5); (fl_of_Z 2, FZ 5); (fl_of_Z 3, FZ 3); (FPInf, FZ 3)]]].
Proof.
  split; [|lazy; reflexivity]. split; [split|split; [|split; [|split]]].
  - repeat constructor; cbn; intuition discriminate.
  - intros t r T R. destruct T as [<-|[<-|[<-|[<-|[]]]]]; try (eapply ev_plain; exact R). discriminate R.
  - intros t [<-|[<-|[<-|[<-|[]]]]]; [exists 10|exists 9|exists 3|exists 2]; reflexivity.
  - eexists. split; [left; reflexivity|discriminate].
  - intros t [<-|[<-|[<-|[<-|[]]]]] H; try (eexists; apply ev_succ). contradiction H. reflexivity.
  - intros t [<-|[<-|[<-|[<-|[]]]]] (r & [= <-] & _ & E); discriminate E.
Qed.

(** With fidelities (identifiers "0_0", "0_1", ...) the order is not that of the evaluations: the curve shows
    after two evaluations what was only reached by the third. *)
Theorem order_refuted : exists ts a b c, ts = [a; b; c] /\ plain_trials ts /\ all_succeeded ts /\
  t_id a = Ifbo_spec.curve_id 0 0 /\ t_id b = Ifbo_spec.curve_id 1 0 /\ t_id c = Ifbo_spec.curve_id 0 1 /\
  m_previous_trial_id (t_meta c) = Some (t_id a) /\
  (exists x y z, m_time_end (t_meta a) = Some x /\ m_time_end (t_meta b) = Some y /\ m_time_end (t_meta c) = Some z /\ fl_lt x y /\ fl_lt y z) /\
  exists incs costs m, process_seed pyf None false 1 ts = Ok (incs, costs, m) /\ ~ minima [a; b; c] incs.
Proof.
  exists [ev "0_0" 9 [] None 0 1; ev "1_0" 8 [] None 1 2; ev "0_1" 2 [] (Some "0_0") 2 3], (ev "0_0" 9 [] None 0 1), (ev "1_0" 8 [] None 1 2), (ev "0_1" 2 [] (Some "0_0") 2 3).
  split; [reflexivity|]. split; [split|].
  { repeat constructor; cbn; intuition discriminate. }
  { intros t r T R. destruct T as [<-|[<-|[<-|[]]]]; eapply ev_plain; exact R. }
  split; [intros t [<-|[<-|[<-|[]]]] _; eexists; apply ev_succ|].
  split; [reflexivity|]. split; [reflexivity|]. split; [reflexivity|]. split; [reflexivity|]. split.
  { exists (FZ 1), (FZ 2), (FZ 3). repeat split; try (constructor; lia); intros H; inversion H; lia. }
  eexists _, _, _. split; [lazy; reflexivity|]. intros [_ M]. destruct (M 1) as (v & V & (t & T & S) & _); [cbn; lia|].
  cbn in V. injection V as <-. destruct T as [<-|[<-|[]]]; destruct S as (r & [= <-] & _ & [= E]).
Qed.
Print Assumptions order_refuted.

(** ** C120 *)
(** A plot is made exactly if there is an evaluation and none failed. *)
Theorem plot_made : forall pyfloat divide, float_id pyfloat -> forall w ts tree b a, plain_trials ts ->
  ((exists d, plot_of pyfloat divide w ts tree b a = Ok d) <-> (exists t, In t ts /\ has_report t) /\ all_succeeded ts).
Proof. exact plot_made_p. Qed.
Print Assumptions plot_made.
Example plot_made_ex : (exists d, plot_of pyf (fun x _ => x) 1 run1 [] "example" "neps" = Ok d) /\ plain_trials run1.
Proof. split; [eexists; lazy; reflexivity|apply default_plot_ex]. Qed.
(** Every run with a failed evaluation: TypeError. *)
Theorem failed_evaluation : forall pyfloat divide, float_id pyfloat -> forall w ts tree b a, plain_trials ts ->
  (exists t, In t ts /\ has_report t /\ forall l, ~ succeeded t l) -> plot_of pyfloat divide w ts tree b a = Err TypeError.
Proof. exact plot_failed. Qed.
Print Assumptions failed_evaluation.
Theorem failed_evaluation_refuted : exists ts, plain_trials ts /\ (exists t l, In t ts /\ succeeded t l) /\
  forall divide b a, plot_of pyf divide 1 ts [] b a = Err TypeError.
Proof.
  exists [ev "1" 3 [] None 0 1; crashed "2"].
  assert (P : plain_trials [ev "1" 3 [] None 0 1; crashed "2"]).
  { split; [repeat constructor; cbn; intuition discriminate|]. intros t r [<-|[<-|[]]] R; [eapply ev_plain; exact R|]. injection R as <-. intros E. discriminate E. }
  split; [exact P|]. split; [eexists _, _; split; [left; reflexivity|apply ev_succ]|]. intros divide b a. apply plot_failed; [exact pyf_id|exact P|].
  exists (crashed "2"). split; [right; left; reflexivity|]. split; [discriminate|]. intros l (r & [= <-] & E & _). discriminate E.
Qed.
Print Assumptions failed_evaluation_refuted.
(** Before the first report: ValueError. *)
Theorem nothing_evaluated : forall pyfloat divide, float_id pyfloat -> forall w ts tree b a, plain_trials ts ->
  (forall t, In t ts -> ~ has_report t) -> plot_of pyfloat divide w ts tree b a = Err ValueError.
Proof. exact plot_none. Qed.
Print Assumptions nothing_evaluated.
Example nothing_evaluated_ex : plain_trials [waiting "1"] /\ (forall t, In t [waiting "1"] -> ~ has_report t) /\
  plot_of pyf (fun x _ => x) 1 [waiting "1"] [] "example" "neps" = Err ValueError.
Proof.
  split; [split|split; [|lazy; reflexivity]].
  - repeat constructor. intros [].
  - intros t r [<-|[]] R. discriminate R.
  - intros t [<-|[]] H. apply H. reflexivity.
Qed.

(** ** C121 *)
(** With a key (not "fidelity"): the costs are the entries of info_dict. *)
Theorem key_axis : forall pyfloat, float_id pyfloat -> forall ts key w, plain_trials ts -> numbered ts -> (exists t, In t ts /\ has_report t) ->
  all_succeeded ts -> no_nan_loss ts -> key <> "fidelity" -> (forall t, In t ts -> has_report t -> exists c, info_value pyfloat key t c) ->
  exists ds incs costs, in_order ts ds /\ process_seed pyfloat (Some key) false w ts = Ok (incs, costs, fl_of_Z (-1)) /\ minima ds incs /\ Forall2 (info_value pyfloat key) ds costs.
Proof. exact key_axis_p. Qed.
Print Assumptions key_axis.
Definition run2 : list trial := [ev "2" 1 [("epochs", VFloat (FZ 3))] (Some "1") 1 2; ev "1" 5 [("epochs", VFloat (FZ 1))] None 0 1].
Example key_axis_ex : process_seed pyf (Some "epochs") false 1 run2 = Ok ([FZ 5; FZ 1], [FZ 1; FZ 3], fl_of_Z (-1)) /\
  forall t, In t run2 -> exists c, info_value pyf "epochs" t c.
Proof.
  split; [lazy; reflexivity|]. intros t [<-|[<-|[]]]; eexists; eexists _, _, _; (split; [reflexivity|split; [reflexivity|split; [reflexivity|split; reflexivity]]]).
Qed.
(** With the key "fidelity" also the greatest of them is returned, by which the positions are divided. *)
Theorem fidelity_axis : forall pyfloat, float_id pyfloat -> forall ts w, plain_trials ts -> numbered ts -> (exists t, In t ts /\ has_report t) ->
  all_succeeded ts -> no_nan_loss ts -> (forall t, In t ts -> has_report t -> exists c, float_entry "fidelity" t c /\ c <> FNaN) ->
  exists ds incs costs m, in_order ts ds /\ process_seed pyfloat (Some "fidelity") false w ts = Ok (incs, costs, m) /\ minima ds incs /\
    Forall2 (float_entry "fidelity") ds costs /\ greatest costs m.
Proof. exact fidelity_p. Qed.
Print Assumptions fidelity_axis.
Definition run4 : list trial := [ev "2" 1 [("fidelity", VFloat (FZ 9))] None 1 2; ev "3" 1 [("fidelity", VFloat (FZ 3))] None 1 2; ev "1" 5 [("fidelity", VFloat (FZ 3))] None 0 1].
Example fidelity_axis_ex : process_seed pyf (Some "fidelity") false 1 run4 = Ok ([FZ 5; FZ 1; FZ 1], [FZ 3; FZ 9; FZ 3], FZ 9) /\
  forall t, In t run4 -> exists c, float_entry "fidelity" t c /\ c <> FNaN.
Proof.
  split; [lazy; reflexivity|]. intros t [<-|[<-|[<-|[]]]]; eexists; (split; [eexists _, _; split; [reflexivity|split; [reflexivity|split; reflexivity]]|discriminate]).
Qed.
(** Asking for the costs of continuations changes nothing, whatever the run. *)
Theorem continuations_ignored : forall pyfloat key w ts, process_seed pyfloat key true 1 ts = process_seed pyfloat key false w ts.
Proof. exact continuations_p. Qed.
Print Assumptions continuations_ignored.
(** So the cost of a continued trial is not reduced by that of the trial that it continues. *)
Theorem continuation_cost_refuted : exists ts a b incs costs m, In a ts /\ In b ts /\ m_previous_trial_id (t_meta b) = Some (t_id a) /\
  info_value pyf "epochs" a (FZ 1) /\ info_value pyf "epochs" b (FZ 3) /\
  process_seed pyf (Some "epochs") true 1 ts = Ok (incs, costs, m) /\ costs = [FZ 1; FZ 3].
Proof.
  exists run2, (ev "1" 5 [("epochs", VFloat (FZ 1))] None 0 1), (ev "2" 1 [("epochs", VFloat (FZ 3))] (Some "1") 1 2). eexists _, _, _.
  split; [right; left; reflexivity|]. split; [left; reflexivity|]. split; [reflexivity|].
  split; [eexists _, _, _; split; [reflexivity|split; [reflexivity|split; [reflexivity|split; reflexivity]]]|].
  split; [eexists _, _, _; split; [reflexivity|split; [reflexivity|split; [reflexivity|split; reflexivity]]]|].
  split; [lazy; reflexivity|reflexivity].
Qed.
Print Assumptions continuation_cost_refuted.
(** With several workers: the costs are the times from the sampling of the trial with the least identifier
    as a text until the evaluations ended. *)
Theorem parallel_times : forall pyfloat, float_id pyfloat -> forall ts w, plain_trials ts -> numbered ts -> (exists t, In t ts /\ has_report t) ->
  all_succeeded ts -> no_nan_loss ts -> w <> 1 -> (forall t, In t ts -> has_report t -> m_time_end (t_meta t) <> None) ->
  exists ds t0 incs costs, in_order ts ds /\ text_first ts t0 /\ process_seed pyfloat None true w ts = Ok (incs, costs, fl_of_Z (-1)) /\ minima ds incs /\
    Forall2 (fun t c => exists e, m_time_end (t_meta t) = Some e /\ c = fl_sub e (m_time_sampled (t_meta t0))) ds costs.
Proof. exact parallel_p. Qed.
Print Assumptions parallel_times.
Definition run3 : list trial := [ev "1" 5 [] None 100 110; ev "2" 3 [] None 101 120].
Example parallel_times_ex : process_seed pyf None true 2 run3 = Ok ([FZ 5; FZ 3], [FZ 10; FZ 20], fl_of_Z (-1)).
Proof. lazy; reflexivity. Qed.
(** But the curve's positions are sums of these times: the second evaluation, which ended 20 after the
    start, is drawn at 30. *)
Theorem parallel_axis_refuted : exists ts a b incs costs m c, ts = [a; b] /\
  m_time_sampled (t_meta a) = FZ 100 /\ m_time_end (t_meta a) = Some (FZ 110) /\ m_time_end (t_meta b) = Some (FZ 120) /\
  process_seed pyf None true 2 ts = Ok (incs, costs, m) /\ curves (fun x => x) None [(incs, costs)] = Ok [c] /\ map fst c = [FZ 10; FZ 30; FPInf].
Proof.
  exists run3, (ev "1" 5 [] None 100 110), (ev "2" 3 [] None 101 120). eexists _, _, _, _. do 4 (split; [reflexivity|]).
  split; [lazy; reflexivity|]. split; lazy; reflexivity.
Qed.
Print Assumptions parallel_axis_refuted.
(** And the start is not the first sampling: with trial 1 not evaluated yet, trial 10 comes before trial 2, and
    costs get negative. *)
Theorem start_refuted : exists ts a b incs c d m, In a ts /\ In b ts /\ fl_lt (m_time_sampled (t_meta a)) (m_time_sampled (t_meta b)) /\
  process_seed pyf None true 2 ts = Ok (incs, [c; d], m) /\ fl_lt c (FZ 0).
Proof.
  exists [waiting "1"; ev "2" 5 [] None 5 20; ev "10" 3 [] None 100 110], (ev "2" 5 [] None 5 20), (ev "10" 3 [] None 100 110). eexists _, _, _, _.
  split; [right; left; reflexivity|]. split; [right; right; left; reflexivity|]. split; [split; [constructor; lia|intros H; inversion H; lia]|].
  split; [lazy; reflexivity|]. split; [constructor; lia|intros H; inversion H; lia].
Qed.
Print Assumptions start_refuted.

(** ** C122 *)
(** Seeds with the same costs: every seed's curve goes through its own points, and stays at its last value. *)
Theorem same_costs : forall costs seeds, seeds <> [] -> (forall s, In s seeds -> snd s = costs /\ length (fst s) = length costs) ->
  Forall (fun s => proper_series (series s)) seeds ->
  curves (fun x => x) None seeds = Ok (map (fun s => series s ++ [(FPInf, last (map snd (series s)) FNaN)]) seeds).
Proof. exact curves_equal. Qed.
Print Assumptions same_costs.
Example same_costs_ex : curves (fun x => x) None [([FZ 5; FZ 2], [FZ 1; FZ 3]); ([FZ 7; FZ 7], [FZ 1; FZ 3])] =
  Ok [[(FZ 1, FZ 5); (FZ 4, FZ 2); (FPInf, FZ 2)]; [(FZ 1, FZ 7); (FZ 4, FZ 7); (FPInf, FZ 7)]] /\
  proper_series (series ([FZ 5; FZ 2], [FZ 1; FZ 3])).
Proof.
  split; [lazy; reflexivity|proper].
Qed.
(** In general every seed's curve has a point at every position of any seed, whose height is that of the
    seed's first point at this position or later (the last one after all of them). *)
Theorem shown_heights : forall seeds, seeds <> [] -> equal_numbers seeds -> Forall (fun s => proper_series (series s)) seeds ->
  exists cs, curves (fun x => x) None seeds = Ok cs /\
    Forall2 (fun s c => (forall x v, In (x, v) c -> next_height (series s) x v) /\
             forall x, In x (map fst c) <-> x = FPInf \/ exists s', In s' seeds /\ In x (map fst (series s'))) seeds cs.
Proof. exact curves_general. Qed.
Print Assumptions shown_heights.
Example shown_heights_ex : curves (fun x => x) None [([FZ 5; FZ 2], [FZ 1; FZ 3]); ([FZ 7; FZ 6], [FZ 2; FZ 1])] =
  Ok [[(FZ 1, FZ 5); (FZ 2, FZ 2); (FZ 3, FZ 2); (FZ 4, FZ 2); (FPInf, FZ 2)]; [(FZ 1, FZ 7); (FZ 2, FZ 7); (FZ 3, FZ 6); (FZ 4, FZ 6); (FPInf, FZ 6)]].
Proof. lazy; reflexivity. Qed.
(** Hence an incumbent is shown before it was found. *)
Theorem shown_early_refuted : exists seeds s cs c x v, seeds = s :: tl seeds /\ Forall (fun s => proper_series (series s)) seeds /\
  curves (fun x => x) None seeds = Ok (c :: cs) /\ In (x, v) c /\ incumbent_at (series s) x (FZ 5) /\ v = FZ 2.
Proof.
  exists [([FZ 5; FZ 2], [FZ 1; FZ 3]); ([FZ 7; FZ 6], [FZ 2; FZ 1])], ([FZ 5; FZ 2], [FZ 1; FZ 3]). eexists _, _, (FZ 2), _.
  split; [reflexivity|]. split.
  { apply Forall_cons; [proper|]. apply Forall_cons; [proper|apply Forall_nil]. }
  split; [lazy; reflexivity|]. split; [right; left; reflexivity|]. split; [|reflexivity].
  exists [], (FZ 1), [(FZ 4, FZ 2)]. split; [reflexivity|]. split; [constructor; lia|]. apply Forall_cons; [apply ltb_lt; reflexivity|apply Forall_nil].
Qed.
Print Assumptions shown_early_refuted.
(** The same happens for a single seed at the left end of x_range. *)
Theorem range_early_refuted : exists s c a b, proper_series (series s) /\ curves (fun x => x) (Some [a; b]) [s] = Ok [c] /\
  nth_error c 0 = Some (a, FZ 4) /\ incumbent_at (series s) a (FZ 5).
Proof.
  exists ([FZ 5; FZ 4; FZ 1], [fl_of_Z 2; fl_of_Z 2; fl_of_Z 2]). eexists _, (fl_of_Z 3), (fl_of_Z 5). split.
  { proper. }
  split; [lazy; reflexivity|]. split; [lazy; reflexivity|].
  exists [], (fl_of_Z 2), [(fl_of_Z 4, FZ 4); (fl_of_Z 6, FZ 1)]. split; [lazy; reflexivity|]. split; [apply lt_le, ltb_lt; lazy; reflexivity|].
  repeat first [apply Forall_nil|apply Forall_cons]; apply ltb_lt; lazy; reflexivity.
Qed.
Print Assumptions range_early_refuted.
(** Whatever x_range is, only values of the seed are drawn. *)
Theorem drawn_values : forall seeds r cs, Forall (fun s => proper_series (series s)) seeds -> (forall a b, r = Some [a; b] -> fl_le a b) ->
  curves (fun x => x) r seeds = Ok cs -> Forall2 (fun s c => forall x v, In (x, v) c -> In v (fst s)) seeds cs.
Proof. exact values_kept. Qed.
Print Assumptions drawn_values.
Example drawn_values_ex : exists c, curves (fun x => x) (Some [fl_of_Z 3; fl_of_Z 5]) [([FZ 5; FZ 4; FZ 1], [fl_of_Z 2; fl_of_Z 2; fl_of_Z 2])] = Ok [c] /\ map snd c = [FZ 4; FZ 4; FZ 1; FZ 1].
Proof. eexists. split; lazy; reflexivity. Qed.
(** Seeds with different numbers of evaluations cannot be drawn. *)
Theorem different_numbers : forall scale r seeds, ~ equal_numbers seeds -> curves scale r seeds = Err ValueError.
Proof. exact curves_ragged. Qed.
Print Assumptions different_numbers.
Theorem different_numbers_refuted : exists seeds, Forall (fun s => proper_series (series s)) seeds /\ length seeds = 2 /\
  forall scale r, curves scale r seeds = Err ValueError.
Proof.
  exists [([FZ 5; FZ 2], [FZ 1; FZ 3]); ([FZ 7], [FZ 2])]. split.
  { apply Forall_cons; [proper|]. apply Forall_cons; [proper|apply Forall_nil]. }
  split; [reflexivity|]. intros scale r. apply curves_ragged. intros E. specialize (E _ _ (or_introl eq_refl) (or_intror (or_introl eq_refl))). discriminate E.
Qed.
Print Assumptions different_numbers_refuted.

(** ** C123 *)
(** If all curves can be made (and, in scientific mode, there are at most 10 benchmarks), all of them are in
    the figure: those of a benchmark under its title in its own axes, with the algorithm as label. *)
Theorem figure : forall pyfloat divide o f bs as_, 1 <= length bs ->
  (o_scientific o = true -> length bs <= 10 /\ forall b, In b bs -> has_key b (f_tree f) = true) ->
  (forall b a, In b bs -> In a as_ -> exists cs, drawable pyfloat divide o f b a cs) ->
  exists ds, plot pyfloat divide o f bs as_ = Ok ds /\ length ds = length bs * length as_ /\
    forall i j b a, nth_error bs i = Some b -> nth_error as_ j = Some a -> exists d, nth_error ds (i * length as_ + j) = Some d /\
      d_axes d = (i / n_cols (length bs), i mod n_cols (length bs)) /\ d_title d = (if o_scientific o then Some b else None) /\ d_label d = a /\
      d_xlabel d = x_label (o_key o) (length bs) i /\ d_ylabel d = y_label (length bs) i /\ drawable pyfloat divide o f b a (d_curves d).
Proof. exact figure_p. Qed.
Print Assumptions figure.
(** The axes exist, and no two benchmarks have the same. *)
Theorem own_axes : forall n, 1 <= n ->
  (exists ax, subplots (n_rows n) (n_cols n) = Ok ax /\
     forall i, i < n -> map_axs ax i n (n_cols n) = Ok (i / n_cols n, i mod n_cols n) /\ i / n_cols n < n_rows n /\ i mod n_cols n < n_cols n) /\
  forall i j, (i / n_cols n, i mod n_cols n) = (j / n_cols n, j mod n_cols n) -> i = j.
Proof. intros n N. split; [exact (axes_p n N)|]. intros i j. exact (own_p n i j N). Qed.
Print Assumptions own_axes.
Example own_axes_ex : map (fun i => map_axs (AGrid 2 2) i 3 (n_cols 3)) [0; 1; 2] = [Ok (0, 0); Ok (0, 1); Ok (1, 0)] /\ subplots (n_rows 3) (n_cols 3) = Ok (AGrid 2 2).
Proof. split; reflexivity. Qed.
(** Labels: at the bottom row and at the left column. *)
Theorem labels : forall key n i, 1 <= n -> i < n ->
  (x_label key n i <> None <-> i / n_cols n = n_rows n - 1) /\ (y_label n i <> None <-> i mod n_cols n = 0).
Proof. intros key n i N I. split; [exact (xlabel_p key n i N I)|exact (ylabel_p n i)]. Qed.
Print Assumptions labels.
Example labels_ex : map (x_label (Some "epochs") 4) [0; 1; 2; 3] = [None; None; Some "EPOCHS"; Some "EPOCHS"] /\ map (y_label 4) [0; 1; 2; 3] = [Some "Best error"; None; Some "Best error"; None].
Proof. split; reflexivity. Qed.
(** For an odd number of benchmarks the right column ends one row earlier, without a label. *)
Theorem label_missing_refuted : exists n i, i < n /\ (forall j, j < n -> j mod n_cols n = i mod n_cols n -> j / n_cols n <= i / n_cols n) /\ forall key, x_label key n i = None.
Proof.
  exists 3, 1. split; [lia|]. split; [|reflexivity]. intros [|[|[|j]]] J; cbn; intros; lia.
Qed.
Print Assumptions label_missing_refuted.
Definition one_run : list (string * list (string * list trial)) := [("neps", [("seed=1", [ev "1" 5 [] None 0 1]); ("seed=0", [ev "1" 7 [] None 0 1])])].
Definition names (n : nat) : list string := map py_str_nat (seq 1 n).
Definition tree (n : nat) : files := mkFiles [] (map (fun b => (b, one_run)) (names n)).
Definition scientific : options := mkOptions true None false 1 None.
Lemma one_run_drawable n b : In b (names n) -> drawable pyf (fun x _ => x) scientific (tree n) b "neps" [[(fl_of_Z 1, FZ 7); (FPInf, FZ 7)]; [(fl_of_Z 1, FZ 5); (FPInf, FZ 5)]].
Proof.
  intros B. exists [[ev "1" 7 [] None 0 1]; [ev "1" 5 [] None 0 1]], [([FZ 7], [fl_of_Z 1], fl_of_Z (-1)); ([FZ 5], [fl_of_Z 1], fl_of_Z (-1))], (fun x => x).
  split; [|split; [|split]].
  - unfold runs_of. cbn [scientific o_scientific]. exists one_run. eexists. exists [("seed=0", [ev "1" 7 [] None 0 1]); ("seed=1", [ev "1" 5 [] None 0 1])].
    split; [|split; [reflexivity|split; [constructor|split; [|reflexivity]]]].
    + unfold tree. cbn [f_tree]. revert B. generalize (names n) as l. induction l as [|x l IH]; intros B; [destruct B|]. cbn. destruct (String.eqb_spec b x); [reflexivity|]. apply IH. destruct B; [congruence|assumption].
    + repeat first [apply FOP_nil|apply FOP_cons|apply Forall_nil|apply Forall_cons]; reflexivity.
  - repeat constructor; lazy; reflexivity.
  - right. split; [discriminate|reflexivity].
  - lazy; reflexivity.
Qed.
Example figure_ex : exists ds, plot pyf (fun x _ => x) scientific (tree 3) (names 3) ["neps"] = Ok ds /\
  map (fun d => (d_axes d, d_title d, d_xlabel d)) ds = [((0, 0), Some "1", None); ((0, 1), Some "2", None); ((1, 0), Some "3", Some "Evaluations")] /\
  map d_curves ds = let c := [[(fl_of_Z 1, FZ 7); (FPInf, FZ 7)]; [(fl_of_Z 1, FZ 5); (FPInf, FZ 5)]] in [c; c; c].
Proof. eexists. split; [lazy; reflexivity|]. split; lazy; reflexivity. Qed.
(** More than 10 benchmarks: no figure. *)
Theorem many_benchmarks : forall pyfloat divide o f bs as_, o_scientific o = true -> 10 < length bs -> forall ds, plot pyfloat divide o f bs as_ <> Ok ds.
Proof. exact many_p. Qed.
Print Assumptions many_benchmarks.
Theorem many_benchmarks_refuted : exists f bs, (forall b, In b bs -> exists cs, drawable pyf (fun x _ => x) scientific f b "neps" cs) /\
  plot pyf (fun x _ => x) scientific f bs ["neps"] = Err KeyError.
Proof.
  exists (tree 11), (names 11). split.
  - intros b B. eexists. exact (one_run_drawable 11 b B).
  - lazy; reflexivity.
Qed.
Print Assumptions many_benchmarks_refuted.

(** ** C124 *)
(** Identifiers of configurations and epochs are read back; epochs count from 1 if one of them is 0. *)
Theorem epochs_read : forall l, l <> [] -> prep_ids (map (fun ck => Ifbo_spec.curve_id (fst ck) (snd ck)) l) =
  Ok (if existsb (fun ck => Nat.eqb (snd ck) 0) l then map (fun ck => (fst ck, S (snd ck))) l else l).
Proof. exact prep_curves. Qed.
Print Assumptions epochs_read.
Example epochs_read_ex : prep_ids ["0_0"; "12_3"] = Ok [(0, 1); (12, 4)] /\ prep_ids ["0_1"; "12_3"] = Ok [(0, 1); (12, 3)].
Proof. split; reflexivity. Qed.
(** A run with numbers as identifiers (of any optimizer without fidelities) cannot be drawn. *)
Theorem numbers_not_read : forall ids, ids <> [] -> Forall (fun i => exists n, i = py_str_nat n) ids -> prep_ids ids = Err AttributeError.
Proof. exact prep_numbers. Qed.
Print Assumptions numbers_not_read.
Theorem numbers_not_read_refuted : exists ids, Forall (fun i => exists n, i = py_str_nat n) ids /\ prep_ids ids = Err AttributeError.
Proof. exists ["1"; "2"]. split; [|reflexivity]. repeat constructor; [exists 1|exists 2]; reflexivity. Qed.
Print Assumptions numbers_not_read_refuted.
