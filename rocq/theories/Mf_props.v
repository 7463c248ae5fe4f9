(** Claims about the table of observations of multi-fidelity optimizers. *)
From Verif Require Import Mf_curve_proofs.
Local Notation length := List.length.
Open Scope Z_scope.
Open Scope string_scope.
Open Scope list_scope.

(** Two configurations; the second one is being evaluated at budget 1. *)
Definition num (z : Z) : pyval := VFloat (fl_of_Z z).
Definition demo : frame := mkFrame ["config"; "perf"]
  [((0, 0), [VStr "a"; num 5]); ((1, 1), [VStr "b"; VFloat FNaN]); ((0, 3), [VStr "a"; num 6]);
   ((1, 0), [VStr "b"; num 4])].
Lemma demo_wf : wf_frame demo.
Proof.
  constructor.
  - repeat (constructor; [cbn; intuition congruence|]). constructor.
  - repeat (constructor; [cbn; intuition congruence|]). constructor.
  - cbn. lia.
  - cbn. intros k r H. repeat destruct H as [[= <- <-]|H]; try reflexivity. destruct H.
Qed.

(** ** C37 *)
(** New labels are all added, with their data, and nothing else changes. *)
Theorem add_adds_all : forall f data index error, wf_frame f -> fits f data index ->
  (forall k, In k index -> ~ In k (labels f)) ->
  exists f', add_data f data index error = (f', Ok tt) /\
    f_cols f' = f_cols f /\ labels f' = labels f ++ index /\
    (forall n k, nth_error index n = Some k -> row_at f' k = nth_error data n) /\
    (forall k, ~ In k index -> row_at f' k = row_at f k).
Proof. exact add_success. Qed.
Example add_adds_all_ex : fits demo [[VStr "c"; num 1]; [VStr "b"; num 2]] [(2, 0); (1, 2)] /\
  (forall k, In k [(2, 0); (1, 2)] -> ~ In k (labels demo)).
Proof.
  split; [split; [discriminate|]; split; [|split; [reflexivity|]]|].
  - repeat (constructor; [cbn; intuition congruence|]). constructor.
  - cbn. intros r H. repeat destruct H as [<-|H]; try reflexivity. destruct H.
  - cbn. intros k [<-|[<-|[]]]; intuition congruence.
Qed.

(** If one of the labels exists already nothing is added. *)
Theorem add_adds_nothing : forall f data index error k, In k index -> In k (labels f) ->
  add_data f data index error = (f, if error then Err ValueError else Ok tt).
Proof. exact add_conflict. Qed.
Example add_adds_nothing_ex : In (1, 1) [(7, 7); (1, 1)] /\ In (1, 1) (labels demo).
Proof. cbn. auto. Qed.

(** Whatever the arguments: when the call raises, the table is unchanged. *)
Theorem add_error_unchanged : forall f data index error f' e,
  add_data f data index error = (f', Err e) -> f' = f.
Proof. exact add_failure. Qed.
Example add_error_unchanged_ex : add_data demo [[num 1; num 2; num 3]] [(7, 7)] false = (demo, Err ValueError).
Proof. reflexivity. Qed.

(** An update of existing labels and columns changes exactly the cells given. *)
Theorem update_updates_all : forall f data index error, wf_frame f -> fits_update data index ->
  incl (map fst data) (f_cols f) -> incl index (labels f) ->
  exists f', update_data f data index error = (f', Ok tt) /\
    f_cols f' = f_cols f /\ labels f' = labels f /\
    (forall n k name vals, nth_error index n = Some k -> In (name, vals) data ->
       cell_at f' k name = nth_error vals n) /\
    (forall k name, ~ In k index \/ ~ In name (map fst data) -> cell_at f' k name = cell_at f k name).
Proof. exact update_success. Qed.
Example update_updates_all_ex : fits_update [("perf", [num 8; num 9])] [(1, 1); (0, 0)] /\
  incl (map fst [("perf", [num 8; num 9])]) (f_cols demo) /\ incl [(1, 1); (0, 0)] (labels demo).
Proof.
  split; [split; [discriminate|]; split; [|split; [discriminate|]; split]|split].
  - repeat (constructor; [cbn; intuition congruence|]). constructor.
  - repeat (constructor; [cbn; intuition congruence|]). constructor.
  - cbn. intros n v [[= <- <-]|[]]. reflexivity.
  - intros x [<-|[]]. cbn. auto.
  - intros x [<-|[<-|[]]]; cbn; auto.
Qed.

(** If one of the labels does not exist nothing is updated. *)
Theorem update_updates_nothing : forall f data index error k, wf_frame f ->
  In k index -> ~ In k (labels f) ->
  update_data f data index error = (f, if error then Err ValueError else Ok tt).
Proof. exact update_missing. Qed.
Example update_updates_nothing_ex : In (7, 7) [(1, 1); (7, 7)] /\ ~ In (7, 7) (labels demo).
Proof. cbn. split; [auto | intuition congruence]. Qed.

(** Whatever the labels and values: when an update of existing columns raises, the table
    is unchanged. *)
Theorem update_error_unchanged_partial : forall f data index error f' e, wf_frame f ->
  incl (map fst data) (f_cols f) ->
  update_data f data index error = (f', Err e) -> f' = f.
Proof. exact update_failure. Qed.
Example update_error_unchanged_ex :
  update_data demo [("perf", [num 1; num 2; num 3])] [(1, 1); (0, 0)] false = (demo, Err ValueError).
Proof. reflexivity. Qed.

(** For columns that do not exist yet it is not: the update fails, but the column stays. *)
Theorem update_error_unchanged_refuted : exists f data index error f' e, wf_frame f /\
  update_data f data index error = (f', Err e) /\ f_cols f' <> f_cols f.
Proof.
  exists demo, [("epochs", [num 1; num 2; num 3])], [(1, 1); (0, 0)], true.
  eexists. eexists. split; [exact demo_wf|]. split; [vm_compute; reflexivity|]. vm_compute. discriminate.
Qed.

(** Tables made by any sequence of calls are well-formed if no call adds a label twice. *)
Theorem tables_well_formed : forall columns f cs, NoDup columns -> init columns = Ok f ->
  Forall distinct cs -> wf_frame (after f cs).
Proof. intros columns f cs N I D. apply after_wf; [exact (init_wf columns f N I) | exact D]. Qed.
Example tables_well_formed_ex : init ["config"; "perf"] = Ok (mkFrame ["config"; "perf"] []) /\
  demo = after (mkFrame ["config"; "perf"] [])
           [Add [[VStr "a"; num 5]; [VStr "b"; VFloat FNaN]] [(0, 0); (1, 1)] true;
            Add [[VStr "a"; num 7]; [VStr "b"; num 4]] [(0, 3); (1, 0)] true;
            Update [("perf", [num 6])] [(0, 3)] true].
Proof. split; reflexivity. Qed.

(** One call can add a label twice. *)
Theorem labels_added_twice_refuted : exists f data index f', wf_frame f /\
  add_data f data index true = (f', Ok tt) /\ ~ NoDup (labels f').
Proof.
  exists demo, [[VStr "c"; num 1]; [VStr "c"; num 2]], [(2, 0); (2, 0)]. eexists.
  split; [exact demo_wf|]. split; [reflexivity|]. cbn. intros N.
  apply (NoDup_remove_2 [(0, 0); (1, 1); (0, 3); (1, 0)] [(2, 0)] (2, 0)) in N. apply N. cbn. auto 6.
Qed.

(** The next id is larger than all stored ones. *)
Theorem next_id_larger : forall f k, In k (labels f) -> fst k < next_config_id f.
Proof. exact next_id_fresh. Qed.
Example next_id_larger_ex : In (1, 0) (labels demo) /\ next_config_id demo = 2.
Proof. split; [cbn; auto | reflexivity]. Qed.

(** ** C38 *)
(** One row per configuration, in the order of the ids ... *)
Theorem reduced_ids : forall f, wf_frame f ->
  StronglySorted Z.lt (map fst (reduce_to_max_seen_budgets f)) /\
  forall i, In i (map fst (reduce_to_max_seen_budgets f)) <-> exists b, In (i, b) (labels f).
Proof. exact reduce_ids. Qed.
Example reduced_ids_ex : wf_frame demo /\ map fst (reduce_to_max_seen_budgets demo) = [0; 1].
Proof. split; [exact demo_wf | reflexivity]. Qed.

(** ... with the largest budget and, column by column, the latest value there is. *)
Theorem reduced_row : forall f i b cells, wf_frame f -> In (i, (b, cells)) (reduce_to_max_seen_budgets f) ->
  In (i, b) (labels f) /\ (forall b', In (i, b') (labels f) -> b' <= b) /\
  length cells = length (f_cols f) /\
  forall j v, nth_error cells j = Some v -> latest f i j v.
Proof. exact reduce_row. Qed.
Example reduced_row_ex : wf_frame demo /\
  In (0, (3, [VStr "a"; num 6])) (reduce_to_max_seen_budgets demo).
Proof. split; [exact demo_wf | cbn; auto]. Qed.

(** Where nothing is missing in the row of the largest budget, it is that row. *)
Theorem reduced_unchanged_partial : forall f i b cells r, wf_frame f ->
  In (i, (b, cells)) (reduce_to_max_seen_budgets f) ->
  row_at f (i, b) = Some r -> (forall v, In v r -> is_na v = false) -> cells = r.
Proof. exact reduce_complete. Qed.
Example reduced_unchanged_ex : row_at demo (0, 3) = Some [VStr "a"; num 6] /\
  (forall v, In v [VStr "a"; num 6] -> is_na v = false).
Proof. split; [reflexivity|]. intros v [<-|[<-|[]]]; reflexivity. Qed.

(** Otherwise the performance of a lower budget appears at the largest one. *)
Theorem reduced_unchanged_refuted : exists f i b cells r, wf_frame f /\
  In (i, (b, cells)) (reduce_to_max_seen_budgets f) /\ row_at f (i, b) = Some r /\ cells <> r /\
  exists b', b' < b /\ row_at f (i, b') = Some cells.
Proof.
  exists demo, 1, 1, [VStr "b"; num 4], [VStr "b"; VFloat FNaN].
  split; [exact demo_wf|]. split; [cbn; auto|]. split; [reflexivity|]. split; [discriminate|].
  exists 0. split; [lia | reflexivity].
Qed.

(** The highest level of each configuration. *)
Theorem highest_levels : forall f,
  StronglySorted Z.lt (map fst (max_observed_levels f)) /\
  (forall i, In i (map fst (max_observed_levels f)) <-> exists b, In (i, b) (labels f)) /\
  (forall i b, In (i, b) (max_observed_levels f) ->
     In (i, b) (labels f) /\ forall b', In (i, b') (labels f) -> b' <= b).
Proof. exact levels_spec. Qed.
Example highest_levels_ex : max_observed_levels demo = [(0, 3); (1, 1)].
Proof. reflexivity. Qed.

(** The same for the rows of a tensor, however ties are sorted. *)
Theorem kept_highest : forall (X : Type) (argsort : list Z -> list nat) (x : list (@trow X)),
  sorts (map (fun r => snd (fst r)) x) (argsort (map (fun r => snd (fst r)) x)) ->
  let y := keep_highest_budget argsort x in
  StronglySorted Z.lt (map (fun r => fst (fst r)) y) /\
  (forall r, In r y -> In r x /\
     forall s, In s x -> fst (fst s) = fst (fst r) -> snd (fst s) <= snd (fst r)) /\
  (forall r, In r x -> exists s, In s y /\ fst (fst s) = fst (fst r)).
Proof. intros X argsort. exact (keep_spec argsort). Qed.
Example kept_highest_ex :
  let x := [(2, 1, "a"); (1, 3, "b"); (2, 5, "c"); (1, 1, "d"); (2, 3, "e")] in
  let argsort := fun _ => [3; 0; 1; 4; 2]%nat in
  sorts (map (fun r => snd (fst r)) x) (argsort (map (fun r => snd (fst r)) x)) /\
  keep_highest_budget argsort x = [(1, 3, "b"); (2, 5, "c")].
Proof.
  cbn zeta. split; [|reflexivity]. split.
  - cbn. apply NoDup_Permutation.
    + repeat (constructor; [cbn; intuition congruence|]). constructor.
    + repeat (constructor; [cbn; intuition congruence|]). constructor.
    + cbn. intros x. intuition.
  - repeat (constructor; [|repeat constructor; cbn; lia]). constructor.
Qed.

(** ** C66 *)
(** The best configuration is the one with the lowest id among those that reached the best
    performance at any budget. *)
Theorem best_learning_curve : forall f maximize i, wf_frame f ->
  get_best_learning_curve_id f maximize = Ok i ->
  exists b x, recorded f i b x /\
    forall i' b' x', recorded f i' b' x' ->
      better maximize x' x = false /\ (i' < i -> better maximize x x' = true).
Proof. exact best_id_spec. Qed.
Example best_learning_curve_ex : wf_frame demo /\ get_best_learning_curve_id demo false = Ok 1.
Proof. split; [exact demo_wf | reflexivity]. Qed.
Theorem best_learning_curve_exists : forall f maximize i b x, wf_frame f -> numeric f -> recorded f i b x ->
  exists j, get_best_learning_curve_id f maximize = Ok j.
Proof. exact best_id_total. Qed.
Example best_learning_curve_exists_ex : numeric demo /\ recorded demo 0 3 (fl_of_Z 6).
Proof.
  split.
  - intros k r v R N. apply (find_in_in _ _ _ (wf_labels demo demo_wf)) in R. cbn in R.
    repeat destruct R as [[= <- <-]|R]; cbn in N; try (injection N as <-; cbn; auto; right; discriminate). destruct R.
  - exists [VStr "a"; num 6], (num 6). repeat split. discriminate.
Qed.
Theorem best_performance : forall f maximize x i b y, wf_frame f ->
  get_best_seen_performance f maximize = Ok x -> recorded f i b y ->
  (exists i' b', recorded f i' b' x) /\ better maximize y x = false.
Proof. exact best_seen_spec. Qed.
Example best_performance_ex : get_best_seen_performance demo false = Ok (fl_of_Z 4) /\ recorded demo 0 3 (fl_of_Z 6).
Proof. split; [reflexivity|]. exists [VStr "a"; num 6], (num 6). repeat split. discriminate. Qed.

(** The learning curve before a budget consists of the performances at lower budgets, in
    order, with NaN where there is none. *)
Theorem learning_curve_before : forall f i b l, wf_frame f -> 1 <= b ->
  extract_learning_curve f i (Some b) = Ok l ->
  exists budgets, StronglySorted Z.lt budgets /\ Forall2 (fun b' x =>
      b' < b /\ (recorded f i b' x \/ x = FNaN /\ forall y, ~ recorded f i b' y)) budgets l /\
    (forall b' x, b' < b -> recorded f i b' x -> In b' budgets).
Proof. exact curve_spec. Qed.
Example learning_curve_before_ex : extract_learning_curve demo 0 (Some 4) = Ok [fl_of_Z 5; fl_of_Z 6] /\
  extract_learning_curve demo 0 (Some 3) = Ok [fl_of_Z 5].
Proof. split; reflexivity. Qed.

Print Assumptions add_adds_all.
Print Assumptions add_adds_nothing.
Print Assumptions add_error_unchanged.
Print Assumptions update_updates_all.
Print Assumptions update_updates_nothing.
Print Assumptions update_error_unchanged_partial.
Print Assumptions update_error_unchanged_refuted.
Print Assumptions tables_well_formed.
Print Assumptions labels_added_twice_refuted.
Print Assumptions next_id_larger.
Print Assumptions reduced_ids.
Print Assumptions reduced_row.
Print Assumptions reduced_unchanged_partial.
Print Assumptions reduced_unchanged_refuted.
Print Assumptions highest_levels.
Print Assumptions kept_highest.
Print Assumptions best_learning_curve.
Print Assumptions best_learning_curve_exists.
Print Assumptions best_performance.
Print Assumptions learning_curve_before.
