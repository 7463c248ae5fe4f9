(** C114 - C118: Bayesian optimization. *)
From Coq Require Import String Permutation.
From Verif Require Import Py Py_proofs Trial_model Limit_spec Init_model Space_model Eval_model Runtime_model Bo_model Bo_spec Bo_proofs.
Local Open Scope nat_scope.
Local Open Scope string_scope.
Local Open Scope list_scope.
Local Notation length := List.length.

(** ** Examples *)
Definition num (z : Z) : row := [FZ z].
Definition dec (r : row) : dict := [("x", match r with v :: _ => VFloat v | [] => VNone end)].
Definition enc (d : dict) : row := match lookup "x" d with Some (VFloat v) => [v] | _ => [] end.
Definition cand (d : gpdata) (p : plan) : row := num 7.
Definition hx : hparam := mkHP (Some (VFloat (FZ 5))) (VFloat (FZ 1)) (VFloat (FZ 0)) (VFloat (FZ 9)).
Definition he : hparam := mkHP None (VInt 4) (VInt 1) (VInt 10).
Definition sp : bospace := mkSpace [("x", hx)] [] 1.
Definition spf : bospace := mkSpace [("epochs", he); ("x", hx)] [("epochs", he)] 1.
Definition bo1 (size : option Z) (cost : bool) (cats : list (nat * nat)) : bo := mkBO sp cats cost true false size.
Definition drawing (l : list row) : nat -> list row := fun n => firstn n l.
Definition rep (loss cost : option fl) : report :=
  mkReport "1" loss cost None [] None None (match loss with Some _ => RSuccess | None => RCrashed end) None.
Definition trial_of (id : string) (r : option report) : trial :=
  mkTrial [("x", VFloat (FZ 3))] (mkMeta id "" None None "w" (FZ 0) None None None None None)
    (match r with None => EVALUATING | Some r => match r_loss r with Some _ => SUCCESS | None => CRASHED end end) r.

(** ** C114 *)
(** The initial design is made unless the fidelities or the number asked for cannot be met. *)
Theorem initial_design_made : forall decode draw s n default_first f,
  (exists d, make_initial_design decode draw s n default_first f = Ok d) <-> can_fidelity s f /\ can_size n.
Proof. exact design_ok. Qed.
Print Assumptions initial_design_made.
Example initial_design_made_ex : can_fidelity spf FMin /\ can_size (NInt 2) /\ ~ can_fidelity sp (FNumber (VInt 3)) /\
  ~ can_fidelity spf (FMap [("x", VInt 1)]) /\ ~ can_size (NInt 0) /\
  make_initial_design dec (drawing []) spf (NInt 0) true FMin = Err ValueError.
Proof.
  repeat split; cbn; try lia; try discriminate. intros H. destruct (H "epochs" he (or_introl eq_refl)) as [v V]. discriminate V.
Qed.

(** What it consists of: the default configuration if asked for, then the least of the rows drawn, as many
    as asked for, each once, decoded; everywhere the wanted fidelities, all other values unchanged. *)
Theorem initial_design_contents : forall decode draw s n default_first f m d,
  good_space s -> good_request f -> proper_rows m (draw (2 * asked s n)) ->
  make_initial_design decode draw s n default_first f = Ok d ->
  exists first rows, d = first ++ map snd rows /\
  least_rows (asked s n) (draw (2 * asked s n)) (map fst rows) /\
  Forall (fun rc => at_fidelity s f (decode (fst rc)) (snd rc)) rows /\
  (default_first = false /\ first = [] \/ default_first = true /\ exists c0 c, first = [c] /\ is_default s c0 /\ at_fidelity s f c0 c).
Proof. exact initial_design_p. Qed.
Print Assumptions initial_design_contents.
(** The rows are determined by that, and so is their number. *)
Theorem least_rows_determined : forall k l o o', least_rows k l o -> least_rows k l o' -> o = o'.
Proof. exact least_rows_unique. Qed.
Print Assumptions least_rows_determined.
Theorem least_rows_number : forall k l o u, least_rows k l o -> NoDup u -> (forall r, In r u <-> In r l) -> length o = Nat.min k (length u).
Proof. exact least_rows_length. Qed.
Print Assumptions least_rows_number.
Example initial_design_contents_ex :
  make_initial_design dec (drawing [num 8; num 2; num 8; num 6]) spf (NInt 2) true FMax =
    Ok [[("epochs", VInt 10); ("x", VFloat (FZ 5))]; [("x", VFloat (FZ 2)); ("epochs", VInt 10)]; [("x", VFloat (FZ 6)); ("epochs", VInt 10)]] /\
  proper_rows 1 (drawing [num 8; num 2; num 8; num 6] 4) /\ good_space spf.
Proof.
  split; [reflexivity|split].
  - intros r [<-|[<-|[<-|[<-|[]]]]]; (split; [reflexivity|intros [H|[]]; discriminate H]).
  - split; repeat constructor; cbn; intros H; repeat destruct H as [H|H]; try discriminate H; exact H.
Qed.
(** The design is not spread over the space: for every number, from twice as many different rows, half of
    which have a large first value, all that are chosen have a small one. *)
Theorem initial_design_low : forall k, exists rows, length rows = 2 * k /\ NoDup rows /\ proper_rows 1 rows /\
  length (filter (fun r => fl_ltb (hd FNaN r) (FZ (Z.of_nat k))) rows) = k /\
  length (firstn k (unique_rows rows)) = k /\ forall r, In r (firstn k (unique_rows rows)) -> fl_ltb (hd FNaN r) (FZ (Z.of_nat k)) = true.
Proof.
  intros k. set (g := fun i => num (Z.of_nat i)). exists (map g (seq 0 (2 * k))).
  assert (U : forall n a, unique_rows (map g (seq a n)) = map g (seq a n)).
  { induction n as [|n IH]; intros a; [reflexivity|]. cbn [seq map]. unfold unique_rows in *. cbn [fold_right]. rewrite IH. destruct n as [|n]; [reflexivity|]. cbn [seq map insert_row].
    unfold g at 1 2, num. cbn [row_ltb fl_ltb]. assert (Z.ltb (Z.of_nat a) (Z.of_nat (S a)) = true) as -> by (apply Z.ltb_lt; lia). reflexivity. }
  assert (NG : forall l, NoDup l -> NoDup (map g l)).
  { intros l. apply FinFun.Injective_map_NoDup. intros x y H. unfold g, num in H. injection H. lia. }
  assert (F1 : forall n a, a + n <= k -> filter (fun r => fl_ltb (hd FNaN r) (FZ (Z.of_nat k))) (map g (seq a n)) = map g (seq a n)).
  { induction n as [|n IH]; intros a L; [reflexivity|]. cbn [seq map filter]. unfold g at 1, num. cbn [hd fl_ltb]. assert (Z.ltb (Z.of_nat a) (Z.of_nat k) = true) as -> by (apply Z.ltb_lt; lia). rewrite IH by lia. reflexivity. }
  assert (F2 : forall n a, k <= a -> filter (fun r => fl_ltb (hd FNaN r) (FZ (Z.of_nat k))) (map g (seq a n)) = []).
  { induction n as [|n IH]; intros a L; [reflexivity|]. cbn [seq map filter]. unfold g at 1, num. cbn [hd fl_ltb]. assert (Z.ltb (Z.of_nat a) (Z.of_nat k) = false) as -> by (apply Z.ltb_ge; lia). apply IH. lia. }
  assert (SP : seq 0 (2 * k) = seq 0 k ++ seq k k) by (replace (2 * k) with (k + k) by lia; apply seq_app).
  assert (FN : firstn k (map g (seq 0 (2 * k))) = map g (seq 0 k)).
  { rewrite SP, map_app, firstn_app, map_length, seq_length, Nat.sub_diag. cbn [firstn]. rewrite app_nil_r. apply firstn_all2. rewrite map_length, seq_length. lia. }
  rewrite U, FN. split; [rewrite map_length; apply seq_length|split; [apply NG, seq_NoDup|split; [|split; [|split]]]].
  - intros r I. apply in_map_iff in I. destruct I as (i & <- & _). split; [reflexivity|intros [H|[]]; discriminate H].
  - rewrite SP, map_app, filter_app, F1, F2 by lia. rewrite app_nil_r, map_length. apply seq_length.
  - rewrite map_length. apply seq_length.
  - intros r I. rewrite <- (F1 k 0) in I by lia. apply filter_In in I. apply I.
Qed.
Print Assumptions initial_design_low.
Theorem initial_design_spread_refuted : exists rows d, length rows = 8 /\
  make_initial_design dec (drawing rows) sp (NInt 4) false FMax = Ok d /\ map enc d = [num 0; num 1; num 2; num 3] /\
  forall z, (4 <= z < 8)%Z -> In (num z) rows.
Proof.
  exists [num 4; num 2; num 6; num 1; num 5; num 3; num 7; num 0]. eexists. split; [reflexivity|split; [reflexivity|split; [reflexivity|]]].
  intros z H. assert (z = 4 \/ z = 5 \/ z = 6 \/ z = 7)%Z as [->|[->|[->| ->]]] by lia; cbn; auto 10.
Qed.
Print Assumptions initial_design_spread_refuted.
(** Not as many configurations as asked for: fewer, though there are more different rows, because a row
    was drawn several times; or more, because the default configuration comes on top. *)
Theorem initial_design_number_refuted : exists draw draw' k d d', 0 < k /\
  make_initial_design dec draw sp (NInt (Z.of_nat k)) false FMax = Ok d /\ length d < k /\
  make_initial_design dec draw' sp (NInt (Z.of_nat k)) true FMax = Ok d' /\ k < length d' /\
  (forall n, length (draw n) = n) /\ exists r, ~ In r (draw (2 * k)).
Proof.
  exists (fun n => repeat (num 3) n), (drawing [num 8; num 2; num 8; num 6]), 2. do 2 eexists. split; [lia|split; [reflexivity|split; [apply Nat.ltb_lt; lazy; reflexivity|split; [reflexivity|split; [apply Nat.ltb_lt; lazy; reflexivity|split]]]]].
  - intros n. apply repeat_length.
  - exists (num 4). intros I. apply repeat_spec in I. discriminate I.
Qed.
Print Assumptions initial_design_number_refuted.

(** The answers during the initial design, in any run of any processes: every process goes through one
    design, which it made of the rows it drew when it was asked first, by the number of trials. *)
Theorem initial_answers : forall decode encode candidate o qs, (forall z, bo_size o = Some z -> (0 < z)%Z) ->
  exists D : nat -> list dict,
  (forall k, (exists q, In q qs /\ q_proc q = k) -> exists q, In q qs /\ q_proc q = k /\ get_design decode o None (q_draw q) = Ok (D k)) /\
  forall i q, nth_error qs i = Some q -> forall c, nth_error (D (q_proc q)) (length (q_trials q)) = Some c ->
  nth_error (answers decode encode candidate o (fun _ => None) qs) i = Some (Ok (mkSampled c (py_str_nat (length (q_trials q) + 1)) None)).
Proof.
  intros decode encode candidate o qs Z. destruct (answers_p decode encode candidate o qs Z (fun _ => None)) as (D & F & A). exists D. split; [|exact A].
  intros k K. destruct (F k K) as [X|[_ X]]; [discriminate X|exact X].
Qed.
Print Assumptions initial_answers.
(** Several processes (or a run that is continued) do not go through one design together: although no
    design has a configuration twice, the second trial gets the configuration of the first. *)
Theorem initial_answers_differ_refuted : exists q1 q2 c,
  length (q_trials q1) = 0 /\ length (q_trials q2) = 1 /\
  (forall q d, In q [q1; q2] -> get_design dec (bo1 (Some 2%Z) false []) None (q_draw q) = Ok d -> NoDup d /\ length d = 2) /\
  answers dec enc cand (bo1 (Some 2%Z) false []) (fun _ => None) [q1; q2] = [Ok (mkSampled c "1" None); Ok (mkSampled c "2" None)].
Proof.
  exists (mkQ 0 (drawing [num 3; num 6; num 8; num 4]) [] None), (mkQ 1 (drawing [num 9; num 1; num 3; num 5]) [trial_of "1" None] None). eexists.
  split; [reflexivity|split; [reflexivity|split]].
  - intros q d [<-|[<-|[]]]; cbn; intros [= <-]; (split; [|reflexivity]); repeat constructor; cbn; intros H; repeat destruct H as [H|H]; try discriminate H; exact H.
  - reflexivity.
Qed.
Print Assumptions initial_answers_differ_refuted.
Example initial_answers_ex :
  answers dec enc cand (bo1 (Some 2%Z) false []) (fun _ => None)
    [mkQ 0 (drawing [num 3; num 6; num 8; num 4]) [] None; mkQ 0 (drawing []) [trial_of "1" None] None] =
  [Ok (mkSampled (dec (num 3)) "1" None); Ok (mkSampled (dec (num 4)) "2" None)].
Proof. reflexivity. Qed.

(** ** C115 *)
(** The data for the model, for any trials: one row, one target and one cost for each trial with a report,
    in the same order; the other trials are pending. *)
Theorem gp_data : forall encode ts s p, parts ts s p -> let d := encode_trials encode ts in
  gp_x d = map (fun tr => encode (t_config (fst tr))) s /\
  Forall2 (fun tr y => target s (snd tr) y) s (gp_y d) /\
  Forall2 (fun tr c => r_cost (snd tr) = Some c \/ r_cost (snd tr) = None /\ c = FNaN) s (gp_cost d) /\
  (p = [] /\ gp_pending d = None \/ p <> [] /\ gp_pending d = Some (map (fun t => encode (t_config t)) p)).
Proof. exact gp_data_p. Qed.
Print Assumptions gp_data.
Theorem target_determined : forall s r y y', target s r y -> target s r y' -> y = y'.
Proof. exact target_unique_p. Qed.
Print Assumptions target_determined.
Definition some_trials : list trial :=
  [trial_of "1" (Some (rep (Some (FZ 4)) (Some (FZ 1)))); trial_of "2" None; trial_of "3" (Some (rep None None));
   trial_of "4" (Some (rep (Some FPInf) (Some (FZ 2)))); trial_of "5" (Some (rep (Some (FZ 9)) (Some (FZ 3)))); trial_of "6" (Some (rep (Some (FZ 1)) (Some (FZ 3))))].
Example gp_data_ex : exists s p, parts some_trials s p /\ length s = 5 /\ length p = 1 /\
  gp_y (encode_trials enc some_trials) = [FZ 4; FZ 4; FZ fl_max; FZ 9; FZ 1] /\
  gp_cost (encode_trials enc some_trials) = [FZ 1; FNaN; FZ 2; FZ 3; FZ 3] /\ gp_pending (encode_trials enc some_trials) = Some [num 3].
Proof.
  do 2 eexists. split; [apply pa_seen; [reflexivity|]; apply pa_wait; [reflexivity|]; do 4 (apply pa_seen; [reflexivity|]); apply pa_nil|].
  repeat split.
Qed.
(** The targets are all finite exactly if there are enough losses; otherwise, for instance when all
    evaluations have crashed, there is no target for any of them. *)
Theorem gp_targets : forall encode ts, make_gp (gp_y (encode_trials encode ts)) = Ok tt <-> enough_losses ts.
Proof. exact make_gp_ok. Qed.
Print Assumptions gp_targets.
Theorem gp_targets_nan : forall encode ts, ts <> [] -> (forall t, In t ts -> lacks_loss t) ->
  gp_y (encode_trials encode ts) = map (fun _ => FNaN) ts.
Proof.
  intros encode ts _ H. destruct (parts_total ts) as (s & p & P). rewrite (gp_y_eq encode ts s p P).
  assert (K : known_losses s = []).
  { destruct (known_losses s) as [|l k] eqn:E; [reflexivity|]. assert (I : In l (known_losses s)) by (rewrite E; left; reflexivity). apply (known_has _ _ _ P) in I.
    destruct I as (t & I & r & R & L & N). destruct (H t I) as (r' & R' & [B|B]); congruence. }
  rewrite nanmedian_none by exact K. clear K. unfold ys. rewrite map_map. induction P as [|t r ts s p E P IH|t ts s p E P IH]; [reflexivity| |].
  - cbn [map]. f_equal; [|apply IH; intros u U; apply H; right; exact U]. destruct (H t (or_introl eq_refl)) as (r' & R' & [B|B]); cbn [snd]; replace r with r' by congruence; rewrite B; reflexivity.
  - destruct (H t (or_introl eq_refl)) as (r' & R' & _). congruence.
Qed.
Print Assumptions gp_targets_nan.
Theorem gp_targets_refuted : exists ts, (forall t, In t ts -> t_report t <> None) /\ gp_y (encode_trials enc ts) = [FNaN; FNaN].
Proof.
  exists [trial_of "1" (Some (rep None None)); trial_of "2" (Some (rep None None))]. split; [|reflexivity]. intros t [<-|[<-|[]]]; discriminate.
Qed.
Print Assumptions gp_targets_refuted.
Example gp_targets_ex : enough_losses some_trials /\ ~ enough_losses [trial_of "1" (Some (rep None None))] /\
  ~ enough_losses [trial_of "1" (Some (rep (Some FPInf) None)); trial_of "2" (Some (rep None None))].
Proof.
  rewrite <- !(gp_targets enc). split; [reflexivity|split; discriminate].
Qed.

(** ** C116 *)
(** Exactly when there is an answer: during the initial design, whatever was reported; afterwards if there
    are losses, all costs and a budget that is not used up if costs are used, and not too many categories. *)
Theorem ask_answers : forall decode encode candidate o made draw ts b,
  (exists a, ask decode encode candidate o made draw ts b = Ok a) <->
  exists d, get_design decode o made draw = Ok d /\
  (length ts < length d \/
   enough_losses ts /\ (bo_use_cost o = true -> enough_costs (bo_log o) ts /\ within_budget b) /\
   (bo_cats o = [] \/ 1 <= combinations (bo_cats o) <= 30)).
Proof.
  intros decode encode candidate o made draw ts b. split.
  - intros [[d c] A]. exists d. pose proof (ask_keeps _ _ _ _ _ _ _ _ _ _ A) as G. split; [exact G|]. destruct (Nat.lt_ge_cases (length ts) (length d)) as [L|L]; [left; exact L|right].
    apply (ask_model decode encode candidate o made draw ts b d G L). eauto.
  - intros (d & G & H). destruct (Nat.lt_ge_cases (length ts) (length d)) as [L|L].
    + destruct (nth_error d (length ts)) as [c|] eqn:N; [|apply nth_error_None in N; lia]. eexists. apply (ask_design decode encode candidate _ _ _ _ b _ G c N).
    + apply (ask_model decode encode candidate o made draw ts b d G L). destruct H as [H|H]; [lia|exact H].
Qed.
Print Assumptions ask_answers.
(** A design is there unless an initial size below 1 was given (which is noticed only here). *)
Theorem design_there : forall decode o made draw, (exists d, get_design decode o made draw = Ok d) <-> made <> None \/ forall z, bo_size o = Some z -> (0 < z)%Z.
Proof. exact get_design_ok. Qed.
Print Assumptions design_there.
(** What the answer is after the initial design: the number of the trial, and the point that was found
    with the data of these trials. *)
Theorem ask_proposes : forall decode encode candidate o made draw ts b d a,
  get_design decode o made draw = Ok d -> length d <= length ts -> ask decode encode candidate o made draw ts b = Ok a ->
  exists pl, optimize_acq (bo_cats o) 20 30 = Ok pl /\ a = (d, mkSampled (decode (candidate (encode_trials encode ts) pl)) (py_str_nat (length ts + 1)) None).
Proof. exact ask_after. Qed.
Print Assumptions ask_proposes.
Example ask_ex : ask dec enc cand (bo1 (Some 2%Z) false []) None (drawing [num 3; num 6; num 8; num 4]) some_trials None =
  Ok ([dec (num 3); dec (num 4)], mkSampled (dec (num 7)) "7" None).
Proof. lazy; reflexivity. Qed.

(** All the evaluations of the initial design crashed (and errors are ignored): no further configuration is
    ever proposed, however many crashed. *)
Theorem all_crashed : forall decode encode candidate o d draw ts b,
  length d <= length ts -> (forall t, In t ts -> lacks_loss t) -> forall a, ask decode encode candidate o (Some d) draw ts b <> Ok a.
Proof.
  intros decode encode candidate o d draw ts b L H a A. destruct (proj1 (ask_model decode encode candidate o (Some d) draw ts b d eq_refl L) (ex_intro _ a A)) as [[(t & l & I & r & R & Q & N) _] _].
  destruct (H t I) as (r' & R' & [B|B]); congruence.
Qed.
Print Assumptions all_crashed.
Theorem all_crashed_refuted : exists ts, (forall t, In t ts -> t_state t = CRASHED) /\
  ask dec enc cand (bo1 (Some 2%Z) false []) None (drawing [num 3; num 6; num 8; num 4]) ts None = Err RuntimeError.
Proof.
  exists [trial_of "1" (Some (rep None None)); trial_of "2" (Some (rep None None))]. split; [|reflexivity]. intros t [<-|[<-|[]]]; reflexivity.
Qed.
Print Assumptions all_crashed_refuted.
(** More workers than configurations in the initial design: a worker that asks while all of them are being
    evaluated gets an exception. *)
Theorem none_reported : forall decode encode candidate o d draw ts,
  bo_use_cost o = false -> length d <= length ts -> (forall t, In t ts -> t_report t = None) -> ask decode encode candidate o (Some d) draw ts None = Err ValueError.
Proof.
  intros decode encode candidate o d draw ts U L H. unfold ask. cbn [get_design bind]. apply nth_error_None in L. rewrite L, U. cbn [cost_percent bind].
  assert (split_trials ts = ([], map t_config ts)) as E.
  { clear L. induction ts as [|t ts IH]; [reflexivity|]. cbn [split_trials]. rewrite IH by (intros u I; apply H; right; exact I). rewrite (H t (or_introl eq_refl)). reflexivity. }
  unfold encode_trials. rewrite E. reflexivity.
Qed.
Print Assumptions none_reported.
Theorem none_reported_refuted : exists qs c, answers dec enc cand (bo1 (Some 1%Z) false []) (fun _ => None) qs = [Ok (mkSampled c "1" None); Err ValueError].
Proof.
  exists [mkQ 0 (drawing [num 3; num 6]) [] None; mkQ 1 (drawing [num 3; num 6]) [trial_of "1" None] None]. eexists. reflexivity.
Qed.
Print Assumptions none_reported_refuted.
(** More than 30 combinations of categories: the initial design is evaluated, then every question fails. *)
Theorem many_categories : forall decode encode candidate o d draw ts b,
  30 < combinations (bo_cats o) -> length d <= length ts -> forall a, ask decode encode candidate o (Some d) draw ts b <> Ok a.
Proof.
  intros decode encode candidate o d draw ts b K L a A. destruct (proj1 (ask_model decode encode candidate o (Some d) draw ts b d eq_refl L) (ex_intro _ a A)) as (_ & _ & [E|E]); [|lia].
  rewrite E in K. cbn in K. lia.
Qed.
Print Assumptions many_categories.
Theorem many_categories_refuted : exists o, ask dec enc cand o None (drawing [num 3; num 6]) [] None = Ok ([dec (num 3)], mkSampled (dec (num 3)) "1" None) /\
  ask dec enc cand o None (drawing [num 3; num 6]) [trial_of "1" (Some (rep (Some (FZ 4)) None))] None = Err ValueError.
Proof. exists (bo1 (Some 1%Z) false [(0, 31)]). split; lazy; reflexivity. Qed.
Print Assumptions many_categories_refuted.
(** With costs: one report without a cost (a crash without cost_value_on_error) and no question is ever
    answered again, whatever else is reported; likewise without max_cost_total. *)
Theorem missing_cost : forall decode encode candidate o d draw ts b t r,
  bo_use_cost o = true -> length d <= length ts -> In t ts -> t_report t = Some r -> r_cost r = None \/ option_map b_max_cost b = Some None ->
  forall a, ask decode encode candidate o (Some d) draw ts b <> Ok a.
Proof.
  intros decode encode candidate o d draw ts b t r U L I R C a A. destruct (proj1 (ask_model decode encode candidate o (Some d) draw ts b d eq_refl L) (ex_intro _ a A)) as (_ & X & _).
  destruct (X U) as [E (u & m & _ & M & _)]. destruct C as [C|C]; [|congruence]. destruct (E t r I R) as (z & Z & _). congruence.
Qed.
Print Assumptions missing_cost.
Theorem missing_cost_refuted : exists ts b, ask dec enc cand (bo1 (Some 1%Z) true []) (Some [dec (num 3)]) (drawing []) ts b = Err ValueError /\
  enough_losses ts /\ within_budget b /\ length (gp_cost (encode_trials enc ts)) = 5 /\ length (filter fl_isnan (gp_cost (encode_trials enc ts))) = 1.
Proof.
  exists some_trials, (Some (mkBudget (Some (FZ 100)) (FZ 9) None 0%Z)). split; [lazy; reflexivity|split; [apply (gp_targets enc); reflexivity|split; [|split; reflexivity]]].
  exists (FZ 9), (FZ 100). split; [reflexivity|split; [reflexivity|]]. left. exists 9%Z, 100%Z. split; [reflexivity|split; [reflexivity|left; lia]].
Qed.
Print Assumptions missing_cost_refuted.
Example with_costs_ex :
  ask dec enc cand (bo1 (Some 1%Z) true []) (Some [dec (num 3)]) (drawing []) [trial_of "1" (Some (rep (Some (FZ 4)) (Some (FZ 1))))] (Some (mkBudget (Some (FZ 100)) (FZ 1) None 0%Z)) =
    Ok ([dec (num 3)], mkSampled (dec (num 7)) "2" None).
Proof. lazy; reflexivity. Qed.

(** A worker that goes on with the limit for which the budget was stored has not used it up. *)
Theorem budget_while_going_on : forall st ts rs m me,
  max_cost_total st = Some m -> m <> FNaN -> Permutation rs (reports_of ts) -> (forall r, In r rs -> cost_ok r) ->
  check_totals st ts = VGo -> within_budget (fold_left charge rs (Some (mkBudget (Some m) (FZ 0) me 0%Z))).
Proof. exact goes_on_within. Qed.
Print Assumptions budget_while_going_on.
(** But the stored budget keeps the limit of the first run: when the run is continued with a greater
    max_cost_total, the worker goes on, and the question fails. *)
Definition drv_none : default_report_values := mkDRV None None None None LCNone.
Definition limit (m : fl) : worker_settings := mkSettings IGNORE drv_none None false (Some m) None None None None None.
Theorem continued_budget_refuted : exists ts m1 m2,
  let b := fold_left charge (reports_of ts) (Some (mkBudget (Some m1) (FZ 0) None 0%Z)) in
  check_totals (limit m1) ts = VStop /\ check_totals (limit m2) ts = VGo /\
  ask dec enc cand (bo1 (Some 1%Z) true []) (Some [dec (num 3)]) (drawing []) ts b = Err AssertionError.
Proof.
  exists [trial_of "1" (Some (rep (Some (FZ 4)) (Some (FZ 3)))); trial_of "2" (Some (rep (Some (FZ 5)) (Some (FZ 3))))], (FZ 5), (FZ 50). repeat split; lazy; reflexivity.
Qed.
Print Assumptions continued_budget_refuted.
Example budget_while_going_on_ex : let ts := [trial_of "1" (Some (rep (Some (FZ 4)) (Some (FZ 3)))); trial_of "2" None; trial_of "3" (Some (rep None None))] in
  check_totals (limit (FZ 5)) ts = VGo /\ Forall cost_ok (reports_of ts) /\ length (reports_of ts) = 2.
Proof.
  split; [lazy; reflexivity|split; [|reflexivity]]. repeat constructor; intros c; cbn; [intros [= <-]; exists 3%Z; split; [reflexivity|lia]|discriminate].
Qed.

(** ** C117 *)
(** With categories: the acquisition function is optimized once for every possible choice of categories,
    each exactly once; with at least one restart exactly if there are at most 20. *)
Theorem every_category : forall cats pl, cats <> [] -> optimize_acq cats 20 30 = Ok pl ->
  exists k fixed, pl = Mixed k fixed /\ length fixed = combinations cats /\ NoDup fixed /\ (forall f, In f fixed <-> choice_of cats f) /\
  (0 < k <-> combinations cats <= 20) /\ k <= 2.
Proof. exact plan_mixed. Qed.
Print Assumptions every_category.
Theorem categories_allowed : forall cats, (exists pl, optimize_acq cats 20 30 = Ok pl) <-> cats = [] \/ 1 <= combinations cats <= 30.
Proof. exact optimize_ok. Qed.
Print Assumptions categories_allowed.
Example every_category_ex : optimize_acq [(1, 2); (4, 3)] 20 30 =
  Ok (Mixed 2 [[(1, 0); (4, 0)]; [(1, 0); (4, 1)]; [(1, 0); (4, 2)]; [(1, 1); (4, 0)]; [(1, 1); (4, 1)]; [(1, 1); (4, 2)]]).
Proof. reflexivity. Qed.
(** Between 21 and 30 combinations are allowed, and then botorch is called with no restart at all. *)
Theorem no_restart_refuted : exists cats fixed, combinations cats = 24 /\ optimize_acq cats 20 30 = Ok (Mixed 0 fixed).
Proof. exists [(0, 4); (1, 6)]. eexists. split; reflexivity. Qed.
Print Assumptions no_restart_refuted.

(** ** C118 *)
(** Losses and costs of results: a number is its own; of a dictionary the entry; for an error "error" if
    errors are ignored, otherwise the value for errors, or an exception if there is none. *)
Theorem loss_and_cost : forall pyfloat o,
  (forall v, get_loss pyfloat o (RFloat v) = Ok (Some v) /\ get_cost pyfloat o (RFloat v) = Ok (Some v)) /\
  (forall d v, lookup "loss" d = Some v -> get_loss pyfloat o (RDict d) = match pyfloat v with Ok x => Ok (Some x) | Err e => Err e end) /\
  (forall d v, lookup "cost" d = Some v -> get_cost pyfloat o (RDict d) = match pyfloat v with Ok x => Ok (Some x) | Err e => Err e end) /\
  (forall d, lookup "loss" d = None -> get_loss pyfloat o (RDict d) = Err KeyError) /\
  (forall d, lookup "cost" d = None -> get_cost pyfloat o (RDict d) = Err KeyError) /\
  (oe_ignore o = true -> get_loss pyfloat o RError = Ok None /\ get_cost pyfloat o RError = Ok None) /\
  (oe_ignore o = false -> forall v, (oe_loss o = Some v -> get_loss pyfloat o RError = Ok (Some v)) /\ (oe_cost o = Some v -> get_cost pyfloat o RError = Ok (Some v))) /\
  (oe_ignore o = false -> (oe_loss o = None -> get_loss pyfloat o RError = Err ValueError) /\ (oe_cost o = None -> get_cost pyfloat o RError = Err ValueError)) /\
  forall r, get_loss pyfloat o (RReport r) = Ok (r_loss r).
Proof.
  intros pyfloat [l c i]. unfold get_loss, get_cost, float_of, on_error. cbn [oe_loss oe_cost oe_ignore].
  repeat split; intros; subst; try reflexivity.
  - rewrite H. reflexivity.
  - rewrite H. reflexivity.
  - rewrite H. reflexivity.
  - rewrite H. reflexivity.
Qed.
Print Assumptions loss_and_cost.
Example loss_and_cost_ex : get_loss (fun _ => Ok (FZ 2)) (mkOnErr (Some (FZ 1)) None false) RError = Ok (Some (FZ 1)) /\
  get_cost (fun _ => Ok (FZ 2)) (mkOnErr (Some (FZ 1)) None false) RError = Err ValueError /\
  get_cost (fun _ => Ok (FZ 2)) (mkOnErr (Some (FZ 1)) None false) (RDict [("cost", VInt 2)]) = Ok (Some (FZ 2)).
Proof. repeat split. Qed.
(** The cost of a report is its loss. *)
Theorem cost_of_report : forall pyfloat o l c, get_cost pyfloat o (RReport (rep (Some l) (Some c))) = Ok (Some l).
Proof. reflexivity. Qed.
Print Assumptions cost_of_report.
Theorem cost_of_report_refuted : exists r, r_cost r = Some (FZ 2) /\ forall pyfloat o, get_cost pyfloat o (RReport r) = Ok (Some (FZ 5)).
Proof. exists (rep (Some (FZ 5)) (Some (FZ 2))). split; reflexivity. Qed.
Print Assumptions cost_of_report_refuted.
