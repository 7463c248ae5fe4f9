(** Proofs about acquisition functions. *)
From Coq Require Import QArith List Bool Lia Psatz.
From Verif Require Export Acq_model Acq_spec.
Import ListNotations.
Local Open Scope nat_scope.
Local Open Scope list_scope.
Local Notation length := List.length.

(** ** Weights *)
Section Weights.
  Context {P V : Type}.
  Notation acqf := (acqf P V).
  Lemma weigh_pending (w : V -> P -> V) (a : acqf) :
    pending_of (weigh w a) = pending_of a /\ exists i, weigh w a = Weighted w i (pending_of a) /\ pending_of i = [].
  Proof. split; [reflexivity|]. exists (set_pending a []). split; [reflexivity|]. destruct a; reflexivity. Qed.
  Lemma applied_same (w : V -> P -> V) vs ps : length vs = length ps -> applied w vs ps = Ok (map (fun vp => w (fst vp) (snd vp)) (combine vs ps)).
  Proof.
    intros L. destruct vs as [|v [|v' vs]].
    - destruct ps; [reflexivity|discriminate L].
    - destruct ps as [|p [|p' ps]]; try discriminate L. reflexivity.
    - unfold applied. rewrite L, Nat.eqb_refl. reflexivity.
  Qed.
  Lemma mapM_applied (w : V -> P -> V) ps vss : (forall vs, In vs vss -> length vs = length ps) ->
    mapM (fun vs => applied w vs ps) vss = Ok (map (fun vs => map (fun vp => w (fst vp) (snd vp)) (combine vs ps)) vss).
  Proof.
    induction vss as [|vs vss IH]; intros H; [reflexivity|]. cbn [mapM map]. rewrite (applied_same w vs ps (H vs (or_introl eq_refl))).
    rewrite IH by (intros vs' I; apply H; right; exact I). reflexivity.
  Qed.
  Lemma one_weight_value (w : V -> P -> V) f q s pend ps : (forall vs, In vs (f (ps ++ pend)) -> length vs = length (ps ++ pend)) ->
    forward (weigh w (MC f q s pend)) ps = Ok (s (map (fun vs => q (map (fun vp => w (fst vp) (snd vp)) (combine vs (ps ++ pend)))) (f (ps ++ pend)))).
  Proof.
    intros H. unfold weigh. cbn [set_pending pending_of forward]. rewrite app_nil_r. rewrite (mapM_applied w (ps ++ pend) _ H). cbn [bind]. rewrite map_map. reflexivity.
  Qed.
  Definition is_mc (a : acqf) : bool := match a with MC _ _ _ _ => true | _ => false end.
  Lemma forward_weighted (w : V -> P -> V) (a : acqf) pend ps : is_mc a = false ->
    forward (Weighted w a pend) ps = bind (forward a (ps ++ pend)) (fun v => match ps ++ pend with [p] => Ok (w v p) | _ => Err AssertionError end).
  Proof.
    intros N. cbn [forward]. destruct a; [discriminate N| |];
      (destruct (forward _ (ps ++ pend)) as [v|e]; [|reflexivity]; cbn [bind applied map]; destruct (ps ++ pend) as [|p [|p' l]]; reflexivity).
  Qed.
  Lemma is_mc_set (a : acqf) p : is_mc (set_pending a p) = is_mc a.
  Proof. destruct a; reflexivity. Qed.
  Lemma set_pending_same (a : acqf) : pending_of a = [] -> set_pending a [] = a.
  Proof. destruct a; cbn; intros ->; reflexivity. Qed.
  Lemma two_weights_value (w1 w2 : V -> P -> V) (a : acqf) p v : pending_of a = [] -> forward (weigh w1 a) [p] = Ok v -> forward (weigh w2 (weigh w1 a)) [p] = Ok (w2 v p).
  Proof.
    intros N E. unfold weigh at 1. rewrite forward_weighted by (rewrite is_mc_set; reflexivity). rewrite (set_pending_same (weigh w1 a)) by exact N.
    cbn [pending_of weigh]. rewrite N. cbn [app]. rewrite E. reflexivity.
  Qed.
  Lemma two_weights_fail (w1 w2 : V -> P -> V) (a : acqf) p : pending_of a <> [] -> forall v, forward (weigh w2 (weigh w1 a)) [p] <> Ok v.
  Proof.
    intros N v. unfold weigh at 1. rewrite forward_weighted by (rewrite is_mc_set; reflexivity). cbn [pending_of weigh].
    destruct (forward _ ([p] ++ pending_of a)) as [v'|e]; cbn [bind]; [|discriminate]. destruct (pending_of a) as [|p' l]; [exfalso; apply N; reflexivity|]. discriminate.
  Qed.
  Lemma two_weights_error (w1 w2 : V -> P -> V) f q s pend p : pend <> [] -> (forall ps vs, In vs (f ps) -> length vs = length ps) ->
    forward (acquired (Some w1) (Some w2) (MC f q s pend)) [p] = Err AssertionError.
  Proof.
    intros N F. unfold acquired. unfold weigh at 1. rewrite forward_weighted by (rewrite is_mc_set; reflexivity). cbn [pending_of weigh set_pending].
    assert (E : forward (weigh w1 (MC f q s [])) ([p] ++ pend) = Ok (s (map (fun vs => q (map (fun vp => w1 (fst vp) (snd vp)) (combine vs (([p] ++ pend) ++ [])))) (f (([p] ++ pend) ++ []))))).
    { apply one_weight_value. intros vs I. exact (F _ _ I). }
    unfold weigh in E. cbn [pending_of set_pending] in E. rewrite E. cbn [bind]. destruct pend as [|p' l]; [exfalso; apply N; reflexivity|]. reflexivity.
  Qed.
End Weights.

Local Open Scope Q_scope.
(** ** Numbers *)
Lemma qltb_spec a b : qltb a b = true <-> a < b.
Proof.
  unfold qltb. rewrite negb_true_iff. split.
  - intros E. apply Qnot_le_lt. intros L. apply Qle_bool_iff in L. rewrite L in E. discriminate.
  - intros L. destruct (Qle_bool b a) eqn:E; [|reflexivity]. apply Qle_bool_iff in E. exfalso. apply (Qlt_not_le _ _ L E).
Qed.
Lemma qltb_false a b : qltb a b = false <-> b <= a.
Proof. unfold qltb. rewrite negb_false_iff. apply Qle_bool_iff. Qed.
Lemma inv_anti a b : 0 < a -> a <= b -> / b <= / a.
Proof.
  intros A B. assert (P : 0 < b) by (apply Qlt_le_trans with a; assumption).
  apply Qle_shift_inv_l; [exact A|]. setoid_replace (/ b * a) with (a / b) by (unfold Qdiv; ring). apply Qle_shift_div_r; [exact P|]. rewrite Qmult_1_l. exact B.
Qed.

(** ** Costs *)
Lemma cheaper log power is_log alpha acq c1 c2 : growing_log log -> growing_power power -> 0 <= alpha -> 0 < c1 -> c1 <= c2 ->
  no_worse (cooled log power is_log alpha acq c1) (cooled log power is_log alpha acq c2).
Proof.
  intros GL (GP1 & GP2) A C1 C. assert (C2 : 0 < c2) by (apply Qlt_le_trans with c1; assumption). unfold cooled. rewrite (proj2 (qltb_spec 0 c1) C1), (proj2 (qltb_spec 0 c2) C2).
  eexists _, _. split; [reflexivity|]. split; [reflexivity|]. destruct is_log.
  - pose proof (GL c1 c2 C1 C) as L. nra.
  - pose proof (GP1 c1 c2 alpha C1 C A) as W. pose proof (GP2 c1 alpha C1 A) as W1. destruct (qltb 0 acq) eqn:E.
    + apply qltb_spec in E. pose proof (inv_anti _ _ W1 W) as I. unfold Qdiv. nra.
    + apply qltb_false in E. nra.
Qed.
Lemma better log power is_log alpha acq1 acq2 c : growing_power power -> 0 <= alpha -> 0 < c -> acq1 <= acq2 ->
  no_worse (cooled log power is_log alpha acq2 c) (cooled log power is_log alpha acq1 c).
Proof.
  intros (GP1 & GP2) A C L. unfold cooled. rewrite (proj2 (qltb_spec 0 c) C). eexists _, _. split; [reflexivity|]. split; [reflexivity|]. destruct is_log; [lra|].
  pose proof (GP2 c alpha C A) as W. pose proof (Qinv_lt_0_compat _ W) as I. unfold Qdiv.
  destruct (qltb 0 acq1) eqn:E1, (qltb 0 acq2) eqn:E2; try apply qltb_spec in E1; try apply qltb_spec in E2; try apply qltb_false in E1; try apply qltb_false in E2; nra.
Qed.
Lemma all_used log power is_log acq c : (forall a, 0 < a -> power a (1 - 1) == 1) -> 0 < c ->
  exists v, cost_cooled log power is_log 1 acq c = Ok (Some v) /\ v == acq.
Proof.
  intros P C. unfold cost_cooled, cooled. rewrite (proj2 (qltb_spec 0 c) C). cbn [Qle_bool andb]. eexists. split; [reflexivity|]. destruct is_log; [ring|]. destruct (qltb 0 acq); rewrite (P c C); field.
Qed.
Lemma no_cost log power is_log alpha acq c : c <= 0 -> cooled log power is_log alpha acq c = None.
Proof. intros C. unfold cooled. rewrite (proj2 (qltb_false 0 c) C). reflexivity. Qed.

(** ** Decaying priors *)
Lemma mapM_complete train : (forall x, In x train -> x <> None) ->
  mapM (fun x : option (Q * Q) => match x with Some (v, up) => Ok (Qle_bool up v) | None => Err AttributeError end) train = Ok (map complete train).
Proof.
  induction train as [|[(v, up)|] train IH]; intros H; [reflexivity| |].
  - cbn [mapM map complete]. rewrite IH by (intros x I; apply H; right; exact I). reflexivity.
  - exfalso. apply (H None); [left; reflexivity|reflexivity].
Qed.
Lemma filter_map_complete train : List.length (filter (fun b => b) (map complete train)) = List.length (filter complete train).
Proof. induction train as [|x train IH]; [reflexivity|]. cbn [map filter]. destruct (complete x); cbn [List.length]; rewrite IH; reflexivity. Qed.
Lemma decay_counts train : train <> [] ->
  ((forall x, In x train -> x = None) -> set_decay None train = Ok (DPy (inject_Z (Z.of_nat (List.length train))))) /\
  ((forall x, In x train -> x <> None) -> set_decay None train = Ok (DNp (inject_Z (Z.of_nat (List.length (filter complete train)))))).
Proof.
  intros N. destruct train as [|x train]; [exfalso; apply N; reflexivity|]. split; intros H.
  - unfold set_decay. rewrite (H x (or_introl eq_refl)). reflexivity.
  - unfold set_decay. destruct x as [x|]; [|exfalso; apply (H None); [left; reflexivity|reflexivity]].
    rewrite (mapM_complete (Some x :: train) H). cbn [bind]. rewrite filter_map_complete. reflexivity.
Qed.
Lemma unset_fails log power is_log beta xs : (exists x, In x xs /\ ~ snd x == 1) -> prior_weighted log power is_log beta (DPy 0) xs = Err ZeroDivisionError.
Proof.
  intros (x & I & N). unfold prior_weighted. destruct xs as [|x0 xs]; [destruct I|]. set (shift := if qltb _ 0 then _ else _). clearbody shift.
  revert I. generalize (x0 :: xs) as l. induction l as [|y l IH]; [intros []|]. intros I. cbn [mapM]. unfold weighted_one at 1. destruct (Qeq_bool (snd y) 1) eqn:E.
  - cbn [bind]. destruct I as [ ->|I]; [apply Qeq_bool_eq in E; contradiction|]. rewrite (IH I). reflexivity.
  - reflexivity.
Qed.
Lemma none_complete power beta acq prior log shift : prior + tiny < 1 -> exists v, weighted_one log power false beta (DNp 0) shift acq prior = Ok (Some v) /\ v == 0.
Proof.
  intros L. unfold weighted_one. assert (N : Qeq_bool prior 1 = false). { destruct (Qeq_bool prior 1) eqn:E; [|reflexivity]. apply Qeq_bool_eq in E. unfold tiny in L. lra. }
  rewrite N. cbn [exponent bind Qeq_bool]. replace (Qeq_bool 0 0) with true by reflexivity. cbn [bind np_power]. rewrite (proj2 (qltb_spec _ _) L). eexists. split; [reflexivity|ring].
Qed.
Lemma likelier log power beta t shift acq p1 p2 : growing_power power -> 0 <= beta -> 0 < t -> 0 <= acq -> 0 <= p1 -> p1 <= p2 -> ~ p1 == 1 -> ~ p2 == 1 ->
  exists a b, weighted_one log power false beta (DNp t) shift acq p1 = Ok (Some a) /\ weighted_one log power false beta (DNp t) shift acq p2 = Ok (Some b) /\ a <= b.
Proof.
  intros (GP1 & GP2) B T A P1 P N1 N2. unfold weighted_one.
  assert (Z : forall p, ~ p == 1 -> Qeq_bool p 1 = false). { intros p H. destruct (Qeq_bool p 1) eqn:E; [|reflexivity]. apply Qeq_bool_eq in E. contradiction. }
  rewrite (Z _ N1), (Z _ N2). cbn [exponent].
  assert (ZT : Qeq_bool t 0 = false). { destruct (Qeq_bool t 0) eqn:E; [|reflexivity]. apply Qeq_bool_eq in E. lra. }
  rewrite ZT. cbn [bind np_power]. eexists _, _. split; [reflexivity|]. split; [reflexivity|].
  assert (EX : 0 <= beta / t). { apply Qle_shift_div_l; [exact T|]. lra. }
  assert (TP : 0 < tiny) by reflexivity. assert (PP : 0 < p1 + tiny) by lra.
  assert (LE : p1 + tiny <= p2 + tiny) by lra. pose proof (GP1 _ _ _ PP LE EX) as W. nra.
Qed.
Lemma prior_of_one log power : (forall x, 0 < x -> log x <= x - 1) ->
  exists beta t p1 p2 acq a b, 0 < beta /\ 0 < t /\ p1 < p2 /\ prior_weighted log power true beta (DPy t) [(acq, p1); (acq, p2)] = Ok [Some a; Some b] /\ b < a.
Proof.
  intros H. exists 10, 100, 1, 2, (1 # 2). eexists _, _. split; [reflexivity|]. split; [reflexivity|]. split; [reflexivity|]. split; [lazy - [Qplus Qmult Qminus Qopp Qdiv tiny]; reflexivity|].
  match goal with |- log ?x + ?y < _ => assert (X : 0 < x) by reflexivity; pose proof (H x X) as L; assert (Y : x - 1 + y < (1 # 2)) by reflexivity end.
  lra.
Qed.

(** ** Upper confidence bound *)
Lemma ucb_fails u beta : snd (ucb_set_state u (Some beta)) = Err TypeError /\ u_beta (fst (ucb_set_state u (Some beta))) = u_beta u.
Proof. split; reflexivity. Qed.
Lemma ucb_value sqrt u mu std : u_fitted u = true -> 0 <= u_beta u ->
  exists v, ucb_eval sqrt u mu std = Ok (Some v) /\ v == (if u_maximize u then mu else - mu) + sqrt (u_beta u) * std.
Proof.
  intros F B. unfold ucb_eval. rewrite F. apply Qle_bool_iff in B. rewrite B. eexists. split; [reflexivity|]. destruct (u_maximize u); ring.
Qed.

(** ** Expected improvement *)
Lemma qmin_least a l : exists m, In m (a :: l) /\ qmin a l = m /\ forall b, In b (a :: l) -> m <= b.
Proof.
  revert a. induction l as [|b l IH]; intros a; cbn [qmin].
  - exists a. split; [left; reflexivity|]. split; [reflexivity|]. intros b [ <-|[]]. apply Qle_refl.
  - destruct (IH (if qltb b a then b else a)) as (m & I & E & L). exists m. split; [destruct I as [<-|I]; [destruct (qltb b a); [right; left|left]; reflexivity|right; right; exact I]|]. split; [exact E|].
    assert (M : m <= (if qltb b a then b else a)) by (apply L; left; reflexivity).
    intros c [ <-|[ <-|I']].
    + destruct (qltb b a) eqn:Q; [apply qltb_spec in Q; lra|exact M].
    + destruct (qltb b a) eqn:Q; [exact M|apply qltb_false in Q; lra].
    + apply L. right. exact I'.
Qed.
Lemma incumbent_least y mu m : ei_incumbent true y mu = Ok m -> least m y.
Proof.
  unfold ei_incumbent. destruct y as [|a l]; [discriminate|]. intros E. destruct (qmin_least a l) as (m' & I & Q & L). rewrite Q in E. assert (H : m = m') by congruence. rewrite H. split; assumption.
Qed.
Lemma argmin_from_spec (pre l : list Q) best b : nth_error pre best = Some b -> (forall a, In a pre -> b <= a) ->
  exists m, nth_error (pre ++ l) (argmin_from (List.length pre) best b l) = Some m /\ forall a, In a (pre ++ l) -> m <= a.
Proof.
  revert pre best b. induction l as [|a l IH]; intros pre best b N L; cbn [argmin_from].
  - exists b. rewrite app_nil_r. split; assumption.
  - replace (pre ++ a :: l)%list with ((pre ++ [a]) ++ l)%list by (rewrite <- app_assoc; reflexivity).
    replace (S (List.length pre)) with (List.length (pre ++ [a])) by (rewrite app_length; cbn; lia).
    destruct (qltb a b) eqn:E; apply IH.
    + rewrite nth_error_app2 by lia. rewrite Nat.sub_diag. reflexivity.
    + apply qltb_spec in E. intros c I. apply in_app_or in I. destruct I as [I|[ <-|[]]]; [pose proof (L c I); lra|apply Qle_refl].
    + rewrite nth_error_app1; [exact N|]. apply nth_error_Some. congruence.
    + apply qltb_false in E. intros c I. apply in_app_or in I. destruct I as [I|[ <-|[]]]; [exact (L c I)|exact E].
Qed.
Lemma incumbent_posterior y mu : List.length y = List.length mu -> mu <> [] ->
  exists i v m, ei_incumbent false y mu = Ok v /\ nth_error y i = Some v /\ nth_error mu i = Some m /\ least m mu.
Proof.
  intros L N. destruct mu as [|a l]; [exfalso; apply N; reflexivity|]. unfold ei_incumbent.
  destruct (argmin_from_spec [a] l 0 a eq_refl) as (m & E & M); [intros c [ <-|[]]; apply Qle_refl|]. cbn [app List.length] in E, M.
  destruct (nth_error y (argmin_from 1 0 a l)) as [v|] eqn:EV.
  - exists (argmin_from 1 0 a l), v, m. repeat split; try assumption. exact (nth_error_In _ _ E).
  - exfalso. apply nth_error_None in EV. assert (argmin_from 1 0 a l < List.length (a :: l))%nat by (apply nth_error_Some; congruence). lia.
Qed.
