(** Drawing, brackets, weights. *)
From Coq Require Import Lqa Qfield.
From Verif Require Export Sh_proofs Ladder_proofs Pb_spec.
Open Scope Q_scope.

(** ** np.random.choice *)
Lemma qsum_nonneg l : (forall x, In x l -> 0 <= x) -> 0 <= qsum l.
Proof.
  induction l as [|x l IH]; cbn [qsum fold_right]; intros P; [lra|].
  pose proof (P x (or_introl eq_refl)). assert (0 <= qsum l) by (apply IH; intros; apply P; right; auto).
  unfold qsum in *. lra.
Qed.

(** How many of the cumulative sums are at most [c]: the position of the draw. *)
Lemma count_cumsum l acc c : (forall x, In x l -> 0 <= x) -> acc <= c -> c < acc + qsum l ->
  exists p, nth_error l (length (filter (fun s => Qle_bool s c) (cumsum acc l))) = Some p /\ 0 < p.
Proof.
  revert acc; induction l as [|x l IH]; intros acc P A B; cbn [qsum fold_right] in B; [lra|].
  cbn [cumsum filter]. destruct (Qle_bool (acc + x) c) eqn:E.
  - apply Qle_bool_iff in E. cbn [length nth_error]. apply IH; auto; [intros; apply P; right; auto|].
    unfold qsum. lra.
  - assert (N : c < acc + x). { apply Qnot_le_lt. intros L. apply Qle_bool_iff in L. congruence. }
    assert (Z : filter (fun s => Qle_bool s c) (cumsum (acc + x) l) = []).
    { assert (G : forall l acc', (forall y, In y l -> 0 <= y) -> c < acc' ->
               filter (fun s => Qle_bool s c) (cumsum acc' l) = []).
      { clear. induction l as [|y l IH]; intros acc' P' L; cbn [cumsum filter]; [reflexivity|].
        pose proof (P' y (or_introl eq_refl)).
        destruct (Qle_bool (acc' + y) c) eqn:E; [apply Qle_bool_iff in E; lra|].
        apply IH; [intros; apply P'; right; auto|lra]. }
      apply G; auto. intros; apply P; right; auto. }
    rewrite Z. cbn. exists x. split; [reflexivity|lra].
Qed.

Lemma filter_ext_len {A} (f g : A -> bool) l : (forall x, In x l -> f x = g x) -> filter f l = filter g l.
Proof.
  induction l as [|x l IH]; intros E; cbn; [reflexivity|]. rewrite (E x (or_introl eq_refl)), IH; auto.
  intros; apply E; right; auto.
Qed.

Lemma numbers_map l : numbers (map Num l) = Some l.
Proof. induction l as [|x l IH]; cbn; [reflexivity|]. rewrite IH. reflexivity. Qed.
Lemma numbers_some ps l : numbers ps = Some l -> ps = map Num l.
Proof.
  revert l; induction ps as [|[q|] ps IH]; intros l; cbn; [intros [= <-]; reflexivity| |discriminate].
  destruct (numbers ps) as [l'|]; cbn; [|discriminate]. intros [= <-]. cbn. rewrite (IH l' eq_refl). reflexivity.
Qed.

Lemma choice_positive ps u i : unit_interval u -> choice ps u = Ok i ->
  exists p, nth_error ps i = Some (Num p) /\ 0 < p.
Proof.
  intros [U0 U1]. unfold choice. destruct (numbers ps) as [l|] eqn:N; [|discriminate].
  destruct (existsb _ l) eqn:X; [discriminate|].
  destruct (negb (Qle_bool (Qabs (qsum l - 1)) tolerance)) eqn:T; [discriminate|]. intros [= <-].
  assert (P : forall x, In x l -> 0 <= x).
  { intros x I. apply Qle_bool_iff. destruct (Qle_bool 0 x) eqn:E; [reflexivity|].
    assert (Y : existsb (fun p => negb (Qle_bool 0 p)) l = true); [|congruence].
    apply existsb_exists. exists x. rewrite E. auto. }
  apply negb_false_iff, Qle_bool_iff in T.
  assert (S0 : 0 < qsum l).
  { apply Qabs_diff_Qle_condition in T. unfold tolerance in T. lra. }
  rewrite (filter_ext_len _ (fun s => Qle_bool s (u * qsum l))).
  - apply numbers_some in N. subst ps.
    destruct (count_cumsum l 0 (u * qsum l) P) as [p [E Q]]; [nra|nra|].
    exists p. split; [|exact Q]. rewrite nth_error_map, E. reflexivity.
  - intros x _. destruct (Qle_bool (x / qsum l) u) eqn:E1, (Qle_bool x (u * qsum l)) eqn:E2; auto.
    + apply Qle_bool_iff in E1. assert (x <= u * qsum l).
      { setoid_replace x with ((x / qsum l) * qsum l); [nra|]. field. lra. }
      apply Qle_bool_iff in H. congruence.
    + apply Qle_bool_iff in E2. assert (x / qsum l <= u).
      { apply Qle_shift_div_r; auto. }
      apply Qle_bool_iff in H. congruence.
Qed.

Lemma choice_total l u : distribution l -> exists i, choice (map Num l) u = Ok i.
Proof.
  intros [P S1]. unfold choice. rewrite numbers_map.
  assert (X : existsb (fun p => negb (Qle_bool 0 p)) l = false).
  { destruct (existsb _ l) eqn:E; [|reflexivity]. apply existsb_exists in E. destruct E as [x [I N]].
    apply P, Qle_bool_iff in I. rewrite I in N. discriminate. }
  rewrite X. assert (T : Qle_bool (Qabs (qsum l - 1)) tolerance = true).
  { apply Qle_bool_iff. setoid_replace (qsum l - 1) with 0 by lra. cbn. unfold tolerance. lra. }
  rewrite T. cbn. eauto.
Qed.

Lemma valid_distribution w : valid w ->
  exists l, [w_inc w; w_prior w; w_random w] = map Num l /\ distribution l.
Proof.
  intros (p & i & r & -> & P & I & R & S1). exists [i; p; r]. split; [reflexivity|]. split.
  - intros x [<-|[<-|[<-|[]]]]; auto.
  - cbn. lra.
Qed.

Lemma policy_total w u : unit_interval u -> valid w -> exists x, ensemble_policy w u = Ok x.
Proof.
  intros U V. destruct (valid_distribution w V) as (l & E & D). unfold ensemble_policy. rewrite E.
  destruct (choice_total l u D) as [i C]. rewrite C. cbn [bind].
  destruct (choice_positive _ _ _ U C) as (p & N & _). rewrite <- E in N.
  destruct i as [|[|[|i]]]; eauto. cbn in N. destruct i; discriminate.
Qed.

Lemma policy_positive w u x : unit_interval u -> ensemble_policy w u = Ok x ->
  exists p, (match x with FromInc => w_inc w | FromPrior => w_prior w | Random => w_random w end) = Num p /\ 0 < p.
Proof.
  intros U. unfold ensemble_policy. destruct (choice _ u) as [i|] eqn:C; cbn [bind]; [|discriminate].
  destruct (choice_positive _ _ _ U C) as (p & N & P).
  destruct i as [|[|[|i]]]; cbn in N; intros [= <-]; injection N as N; eauto.
Qed.

(** ** Crossover *)
Lemma clip01_range x : 0 <= clip01 x <= 1.
Proof.
  unfold clip01. destruct (Qle_bool x 0) eqn:A; [lra|]. destruct (Qle_bool 1 x) eqn:B; [lra|].
  assert (~ x <= 0) by (intros L; apply Qle_bool_iff in L; congruence).
  assert (~ 1 <= x) by (intros L; apply Qle_bool_iff in L; congruence). lra.
Qed.

Lemma crossover_valid w i : valid w -> w_inc w = Num i -> 0 < i ->
  exists l, crossover_probs w = map Num l /\ distribution l.
Proof.
  intros (p & i' & r & -> & P & I & R & S1) E L. cbn in E. injection E as ->.
  unfold crossover_probs, w_prior, w_inc, w_random. unfold share.
  destruct (Qeq_bool (1 - r) 0) eqn:Z; [apply Qeq_bool_eq in Z; lra|].
  set (a := clip01 (p / (1 - r))). set (b := clip01 (i / (1 - r))).
  pose proof (clip01_range (p / (1 - r))) as A. pose proof (clip01_range (i / (1 - r))) as B. fold a in A. fold b in B.
  exists [1 - Qabs (a - b); Qabs (a - b)]. split; [reflexivity|].
  assert (0 <= Qabs (a - b) <= 1).
  { split; [apply Qabs_nonneg|]. apply Qabs_Qle_condition. lra. }
  split; [intros x [<-|[<-|[]]]; lra|]. cbn. lra.
Qed.

(** ** Brackets *)
Lemma qpow_pos eta n : (1 <= eta)%nat -> 1 <= qpow eta n.
Proof.
  intros E. unfold qpow. change 1 with (inject_Z 1). rewrite <- Zle_Qle.
  pose proof (Z.pow_pos_nonneg (Z.of_nat eta) (Z.of_nat n)). lia.
Qed.
Lemma qnat_S n : qnat (S n) == qnat n + 1.
Proof. unfold qnat. rewrite Nat2Z.inj_succ, <- Z.add_1_r, inject_Z_plus. reflexivity. Qed.
Lemma qnat_nonneg n : 0 <= qnat n.
Proof. unfold qnat. change 0 with (inject_Z 0). rewrite <- Zle_Qle. lia. Qed.
Lemma qnat_le m n : (m <= n)%nat -> qnat m <= qnat n.
Proof. intros. unfold qnat. rewrite <- Zle_Qle. lia. Qed.
Lemma qnat_plus m n : qnat (m + n) == qnat m + qnat n.
Proof. unfold qnat. rewrite Nat2Z.inj_add, inject_Z_plus. reflexivity. Qed.

Lemma bracket_weight_pos eta K s : (1 <= eta)%nat -> 0 < bracket_weight eta K s.
Proof.
  intros E. unfold bracket_weight. pose proof (qpow_pos eta (K - s) E).
  pose proof (qnat_nonneg K). pose proof (qnat_nonneg (K - s)).
  assert (0 < qnat (K + 1)) by (rewrite qnat_plus; change (qnat 1) with 1; lra).
  assert (0 < qnat (K - s + 1)) by (rewrite qnat_plus; change (qnat 1) with 1; lra).
  apply Qlt_shift_div_l; [lra|]. nra.
Qed.

Lemma qsum_div l t : ~ t == 0 -> qsum (map (fun x => x / t) l) == qsum l / t.
Proof.
  intros T. induction l as [|x l IH]; cbn [map qsum fold_right]; [field; auto|].
  unfold qsum in *. rewrite IH. field. auto.
Qed.
Lemma qsum_pos l : l <> [] -> (forall x, In x l -> 0 < x) -> 0 < qsum l.
Proof.
  intros N P. destruct l as [|x l]; [congruence|]. cbn [qsum fold_right].
  pose proof (P x (or_introl eq_refl)).
  assert (0 <= qsum l) by (apply qsum_nonneg; intros; apply Qlt_le_weak, P; right; auto). unfold qsum in *. lra.
Qed.

Lemma bracket_sum_pos eta K : (1 <= eta)%nat -> 0 < qsum (map (bracket_weight eta K) (seq 0 (S K))).
Proof.
  intros E. apply qsum_pos; [discriminate|]. intros x I. apply in_map_iff in I.
  destruct I as (s & <- & _). apply bracket_weight_pos; auto.
Qed.

Lemma bracket_probs_distribution eta K : (1 <= eta)%nat -> distribution (bracket_probs eta K).
Proof.
  intros E. pose proof (bracket_sum_pos eta K E) as S0. unfold bracket_probs. split.
  - intros x I. apply in_map_iff in I. destruct I as (y & <- & I). apply in_map_iff in I. destruct I as (s & <- & _).
    pose proof (bracket_weight_pos eta K s E). apply Qle_shift_div_l; lra.
  - rewrite qsum_div by lra. field. lra.
Qed.

Lemma bracket_probs_nth eta K s p : nth_error (bracket_probs eta K) s = Some p ->
  (s <= K)%nat /\ p = bracket_weight eta K s / qsum (map (bracket_weight eta K) (seq 0 (S K))).
Proof.
  unfold bracket_probs. rewrite map_map, nth_error_map.
  destruct (nth_error (seq 0 (S K)) s) as [s'|] eqn:N; [|discriminate]. intros [= <-].
  assert (s < S K)%nat by (rewrite <- (seq_length (S K) 0); apply nth_error_Some; congruence).
  assert (s' = s).
  { apply (nth_error_nth _ _ 0%nat) in N. rewrite seq_nth in N by lia. lia. }
  subst. split; [lia|reflexivity].
Qed.

Lemma bracket_weight_step eta K s : (2 <= eta)%nat -> (s < K)%nat ->
  bracket_weight eta K (S s) <= bracket_weight eta K s.
Proof.
  intros E L. unfold bracket_weight. replace (K - s)%nat with (S (K - S s)) by lia.
  set (n := (K - S s)%nat). rewrite qpow_S. set (a := qpow eta n).
  pose proof (qpow_pos eta n ltac:(lia)). fold a in H. pose proof (eta_pos eta E) as EP.
  set (e := inject_Z (Z.of_nat eta)) in *. set (k := qnat (K + 1)).
  assert (0 <= k) by apply qnat_nonneg. pose proof (qnat_nonneg n) as NN.
  assert (X : qnat (n + 1) == qnat n + 1) by (rewrite qnat_plus; reflexivity).
  assert (Y : qnat (S n + 1) == qnat n + 2).
  { replace (S n + 1)%nat with (n + 2)%nat by lia. rewrite qnat_plus. reflexivity. }
  rewrite X, Y. apply Qle_shift_div_r; [lra|].
  setoid_replace (e * a * k / (qnat n + 2) * (qnat n + 1)) with (a * k * ((e * (qnat n + 1)) / (qnat n + 2))) by (field; lra).
  assert (1 <= (e * (qnat n + 1)) / (qnat n + 2)) by (apply Qle_shift_div_l; nra).
  assert (0 <= a * k) by nra. nra.
Qed.

Lemma bracket_probs_decreasing eta K s p q : (2 <= eta)%nat ->
  nth_error (bracket_probs eta K) s = Some p -> nth_error (bracket_probs eta K) (S s) = Some q -> 0 < q <= p.
Proof.
  intros E P Q. apply bracket_probs_nth in P, Q. destruct P as [_ ->], Q as [L ->].
  pose proof (bracket_sum_pos eta K ltac:(lia)) as S0. set (t := qsum _) in *.
  pose proof (bracket_weight_step eta K s E ltac:(lia)). pose proof (bracket_weight_pos eta K (S s) ltac:(lia)).
  split; [apply Qlt_shift_div_l; lra|]. apply Qle_shift_div_l; auto.
  setoid_replace (bracket_weight eta K (S s) / t * t) with (bracket_weight eta K (S s)) by (field; lra). auto.
Qed.

Lemma bracket_total eta K u : (1 <= eta)%nat -> unit_interval u ->
  exists s, bracket_to_run eta K u = Ok s /\ (s <= K)%nat.
Proof.
  intros E U. unfold bracket_to_run. destruct (choice_total _ u (bracket_probs_distribution eta K E)) as [s C].
  exists s. split; auto. destruct (choice_positive _ _ _ U C) as (p & N & _).
  rewrite nth_error_map in N. destruct (nth_error (bracket_probs eta K) s) eqn:X; [|discriminate].
  apply bracket_probs_nth in X. tauto.
Qed.

(** ** Weights *)
Lemma raw_at_least_1 t eta n rung w : (1 <= eta)%nat -> raw_prior_weight t eta n rung = Ok w -> 1 <= w.
Proof.
  intros E. destruct t; cbn [raw_prior_weight]; [intros [= <-]; apply qpow_pos; auto| |intros [= <-]; lra|discriminate].
  unfold linspace. rewrite nth_error_map. destruct (nth_error (seq 0 n) rung) as [i|]; [|discriminate].
  cbn [option_map]. intros [= <-]. pose proof (qnat_nonneg i).
  assert (1 <= qnat eta) by (apply (qnat_le 1 eta); auto).
  assert (0 <= (qnat eta - 1) / qnat (n - 1)).
  { unfold Qdiv. assert (0 <= / qnat (n - 1)) by (apply Qinv_le_0_compat, qnat_nonneg). nra. }
  nra.
Qed.

Section Weights.
Context {H : Type}.
Variable argsort : list fl -> list nat.
Variable default : H.
Variable score : H -> H -> H -> Q * Q.
Variable dist : H -> H -> Q.
Variable argmin_strings : list perf -> res nat.
Implicit Types (rows : list (row H)) (hist : histories).

(** The two parts of the prior's weight: a share of one each, or nothing. *)
Definition shares (x : weight * weight) : Prop :=
  exists a b, x = (Num a, Num b) /\ 0 <= a /\ 0 <= b /\ a + b == 1.

Lemma constant_shares eta : (1 <= eta)%nat -> shares (let '(a, b) := ratio_constant eta in (Num a, Num b)).
Proof.
  intros E. unfold ratio_constant. assert (1 <= qnat eta) by (apply (qnat_le 1 eta); auto).
  eexists _, _. split; [reflexivity|]. split; [apply Qle_shift_div_l; lra|]. split; [apply Qle_shift_div_l; lra|].
  field. lra.
Qed.

Lemma weighted_nonneg l : (forall s, In s l -> 0 <= fst s /\ 0 <= snd s) ->
  0 <= fst (weighted_sum l) /\ 0 <= snd (weighted_sum l).
Proof.
  induction l as [|s l IH]; intros P; cbn [weighted_sum]; [cbn; lra|].
  destruct (weighted_sum l) as [a b]. cbn [fst snd] in *.
  destruct IH as [A B]; [intros; apply P; right; auto|]. destruct (P s (or_introl eq_refl)).
  pose proof (qnat_nonneg (length (s :: l))). split; nra.
Qed.
Lemma weighted_pos l : l <> [] -> (forall s, In s l -> 0 <= fst s /\ 0 <= snd s /\ 0 < fst s + snd s) ->
  0 < fst (weighted_sum l) + snd (weighted_sum l).
Proof.
  destruct l as [|s l]; [congruence|]. intros _ P. cbn [weighted_sum].
  destruct (weighted_nonneg l) as [A B]; [intros x I; destruct (P x (or_intror I)); tauto|].
  destruct (weighted_sum l) as [a b]. cbn [fst snd] in *.
  destruct (P s (or_introl eq_refl)) as (X & Y & Z). cbn [length]. pose proof (qnat_S (length l)).
  pose proof (qnat_nonneg (length l)). set (k := qnat (S (length l))) in *. nra.
Qed.

Lemma scores_in rows inc ids l : scores default score rows inc ids = Ok l ->
  length l = length ids /\ forall s, In s l -> exists c, s = score c default inc.
Proof.
  revert l; induction ids as [|c ids IH]; intros l; cbn [scores]; [intros [= <-]; split; [reflexivity|intros s []]|].
  destruct (find_row c rows) as [x|]; [|discriminate].
  destruct (scores default score rows inc ids) as [l'|]; cbn [bind]; [|discriminate]. intros [= <-].
  destruct (IH l' eq_refl) as [L I]. split; [cbn; auto|]. intros s [<-|J]; eauto.
Qed.

Lemma share_split a b : 0 <= a -> 0 <= b -> 0 < a + b -> shares (share a (a + b), share b (a + b)).
Proof.
  intros A B P. unfold share. destruct (Qeq_bool (a + b) 0) eqn:Z; [apply Qeq_bool_eq in Z; lra|].
  eexists _, _. split; [reflexivity|]. split; [apply Qle_shift_div_l; lra|]. split; [apply Qle_shift_div_l; lra|].
  field. lra.
Qed.

(** All of the history, so at least one configuration is scored. *)
Lemma pick_length (ids : list nat) idx : (forall i, In i idx -> (i < length ids)%nat) -> length (pick ids idx) = length idx.
Proof.
  induction idx as [|i idx IH]; intros P; cbn; [reflexivity|].
  assert (L : (i < length ids)%nat) by (apply P; left; auto). apply nth_error_Some in L.
  destruct (nth_error ids i); [|congruence]. cbn. f_equal. apply IH. intros; apply P; right; auto.
Qed.

Definition permutes : Prop := forall l, Permutation (argsort l) (seq 0 (length l)).

Lemma argsort_perfs_perm l idx : permutes -> argsort_perfs argsort l = Ok idx -> Permutation idx (seq 0 (length l)).
Proof.
  intros P. unfold argsort_perfs. destruct (forallb is_err l).
  - intros [= <-]. rewrite <- (map_length (fun _ : perf => FZ 0)). apply P.
  - destruct (existsb is_err l); [discriminate|]. intros [= <-].
    erewrite <- map_length. apply P.
Qed.

Lemma dynamic_shares eta lo hist rows rung x : (1 <= eta)%nat -> permutes -> densities score -> scored score ->
  ratio_dynamic argsort default score argmin_strings eta lo hist rows rung = Ok x -> shares x.
Proof.
  intros E PM D SC. revert x; induction rung as [rung IH] using lt_wf_ind; intros x.
  destruct rung as [|r]; cbn [ratio_dynamic];
  (destruct (ngetitem _ hist) as [h|]; cbn [bind]; [|discriminate]);
  (destruct (Nat.leb_spec eta (length h)) as [LE|LT];
   [| match goal with |- context [Nat.eqb ?a lo] => destruct (Nat.eqb_spec a lo) end;
      [ intros [= <-]; assert (1 <= qnat eta) by (apply (qnat_le 1 eta); auto);
        eexists _, _; split; [reflexivity|]; split; [apply Qle_shift_div_l; lra|]; split; [apply Qle_shift_div_l; lra|];
        field; lra
      | ] ]).
  2: discriminate. 3: intros Y; apply (IH r); auto; lia.
  all: destruct (incumbent default argmin_strings rows) as [inc|]; cbn [bind]; [|discriminate];
    destruct (argsort_perfs argsort (map snd h)) as [idx|] eqn:AS; cbn [bind]; [|discriminate];
    destruct (scores default score rows inc _) as [l|] eqn:SS; cbn [bind]; [|discriminate];
    destruct (scores_in _ _ _ _ SS) as [L I];
    assert (NE : l <> []);
    [ intros ->; cbn in L; apply argsort_perfs_perm in AS; [|exact PM]; rewrite map_length in AS;
      rewrite pick_length in L;
      [ rewrite firstn_length, (Permutation_length AS), seq_length in L; lia
      | intros i J; apply Sh_proofs.firstn_in in J; apply (Permutation_in _ AS), in_seq in J; rewrite map_length; lia ]
    | ];
    assert (PS : forall s, In s l -> 0 <= fst s /\ 0 <= snd s /\ 0 < fst s + snd s)
      by (intros s J; destruct (I s J) as [c ->]; destruct (D c default inc); split; auto; split; auto);
    assert (P1 := weighted_pos l NE PS);
    destruct (weighted_nonneg l) as [A B]; [intros s J; destruct (PS s J); tauto|];
    destruct (weighted_sum l) as [a b]; cbn [fst snd] in *; intros [= <-]; apply share_split; auto.
Qed.

Lemma resources_nonneg rungs rows u : (forall r c, nget r rungs = Some c -> 0 <= c) ->
  resources_used rungs rows = Ok u -> 0 <= u.
Proof.
  intros P. revert u; induction rows as [|x rows IH]; intros u; cbn [resources_used]; [intros [= <-]; lra|].
  destruct (is_nan (r_perf x)); [apply IH|].
  unfold ngetitem. destruct (nget (r_rung x) rungs) as [c|] eqn:N; cbn [bind]; [|discriminate].
  destruct (resources_used rungs rows) as [s|]; cbn [bind]; [|discriminate]. intros [= <-].
  apply P in N. specialize (IH s eq_refl). lra.
Qed.

Lemma two_pow_pos z : (0 <= z)%Z -> 1 <= inject_Z (2 ^ z).
Proof. intros. change 1 with (inject_Z 1). rewrite <- Zle_Qle. pose proof (Z.pow_pos_nonneg 2 z). lia. Qed.

Lemma decay_shares f eta used x : 0 < f_upper f -> (1 <= eta)%nat -> 0 <= used ->
  ratio_decay used eta f = Ok x -> shares (Num (fst x), Num (snd x)).
Proof.
  intros F E U. unfold ratio_decay, prior_weight_for_decay.
  assert (1 <= qnat eta) by (apply (qnat_le 1 eta); auto).
  destruct (Qeq_bool _ 0); cbn [bind]; [discriminate|].
  set (idx := Qfloor (used / (qnat eta * f_upper f))).
  assert (Z0 : (0 <= idx)%Z).
  { change 0%Z with (Qfloor 0). apply Qfloor_resp_le. apply Qle_shift_div_l; nra. }
  clearbody idx. destruct (negb (f_int f) && _)%bool; cbn [bind]; [discriminate|].
  pose proof (two_pow_pos idx Z0) as P2. set (d := inject_Z (2 ^ idx)) in *. clearbody d.
  intros [= <-]. cbn [fst snd]. exists (/ d), (1 - / d). split; [reflexivity|].
  assert (I0 : 0 < / d) by (apply Qinv_lt_0_compat; lra).
  assert (I1 : / d <= 1).
  { assert (X : d * / d == 1) by (field; lra). nra. }
  split; [lra|]. split; [lra|ring].
Qed.

Lemma ratio_shares st f eta b0 hist rows x : (1 <= eta)%nat -> 0 < f_upper f ->
  (forall r c, nget r (b_rungs b0) = Some c -> 0 <= c) ->
  (st = Dynamic -> permutes /\ densities score /\ scored score) ->
  prior_to_incumbent_ratio argsort default score argmin_strings st f eta b0 hist rows = Ok x -> shares x.
Proof.
  intros E F NN D. destruct st; cbn [prior_to_incumbent_ratio].
  - pose proof (constant_shares eta E) as S0. destruct (ratio_constant eta) as [a b]. intros [= <-]. exact S0.
  - destruct (resources_used (b_rungs b0) rows) as [u|] eqn:R; cbn [bind]; [|discriminate].
    destruct (ratio_decay u eta f) as [[a b]|] eqn:Q; cbn [bind]; [|discriminate]. intros [= <-].
    apply resources_nonneg in R; [|exact NN]. apply (decay_shares f eta u (a, b) F E R Q).
  - destruct (D eq_refl) as (PM & DD & SC). apply dynamic_shares; auto.
  - discriminate.
Qed.

Lemma calc_valid t st f eta b0 hist rows rung w : (1 <= eta)%nat -> 0 < f_upper f ->
  (forall r c, nget r (b_rungs b0) = Some c -> 0 <= c) ->
  (st = Dynamic -> permutes /\ densities score /\ scored score) ->
  calc_sampling_args argsort default score argmin_strings t st f eta b0 hist rows rung = Ok w ->
  valid w /\ exists raw, raw_prior_weight t eta (length (b_rungs b0)) rung = Ok raw /\ w_random w = Num (1 / (raw + 1)) /\
  exists a b, prior_to_incumbent_ratio argsort default score argmin_strings st f eta b0 hist rows = Ok (Num a, Num b) /\
    w_prior w = Num (a * (raw / (raw + 1))) /\ w_inc w = Num (b * (raw / (raw + 1))) /\ 0 <= a /\ 0 <= b /\ a + b == 1 /\ 1 <= raw.
Proof.
  intros E F NN D. unfold calc_sampling_args.
  destruct (raw_prior_weight t eta _ rung) as [raw|] eqn:R; cbn [bind]; [|discriminate].
  destruct (prior_to_incumbent_ratio _ _ _ _ st f eta b0 hist rows) as [[rp ri]|] eqn:Q; cbn [bind]; [|discriminate].
  intros [= <-]. destruct (ratio_shares _ _ _ _ _ _ _ E F NN D Q) as (a & b & [= -> ->] & A & B & S1).
  pose proof (raw_at_least_1 _ _ _ _ _ E R) as R1. cbn [nmul]. split.
  - eexists _, _, _. split; [reflexivity|].
    assert (X : 0 <= raw / (raw + 1)) by (apply Qle_shift_div_l; lra).
    assert (Y : 0 <= 1 / (raw + 1)) by (apply Qle_shift_div_l; lra).
    split; [nra|]. split; [nra|]. split; [exact Y|].
    setoid_replace (a * (raw / (raw + 1)) + b * (raw / (raw + 1))) with ((a + b) * (raw / (raw + 1))) by ring.
    rewrite S1. field. lra.
  - exists raw. split; [reflexivity|]. split; [reflexivity|]. exists a, b. cbn. auto 10.
Qed.

Lemma set_valid t st how f eta b0 (b : bracket) hist rows rung a : (1 <= eta)%nat -> 0 < f_upper f ->
  (forall r c, nget r (b_rungs b0) = Some c -> 0 <= c) ->
  (st = Dynamic -> permutes /\ densities score /\ scored score) ->
  set_sampling_weights_and_inc argsort default score dist argmin_strings t st how f eta b0 b hist rows rung = Ok a ->
  valid (a_weights a) /\ (a_inc a = None -> w_inc (a_weights a) = Num 0) /\
  (is_activate_inc b0 b hist rows = Ok (match a_inc a with None => false | Some _ => true end)) /\
  exists raw, raw_prior_weight t eta (length (b_rungs b0)) rung = Ok raw /\ w_random (a_weights a) = Num (1 / (raw + 1)).
Proof.
  intros E F NN D. unfold set_sampling_weights_and_inc.
  destruct (calc_sampling_args _ _ _ _ t st f eta b0 hist rows rung) as [w|] eqn:C; cbn [bind]; [|discriminate].
  destruct (calc_valid _ _ _ _ _ _ _ _ _ E F NN D C) as [V (raw & R & RW & _)].
  destruct (is_activate_inc b0 b hist rows) as [act|]; cbn [bind]; [|discriminate].
  destruct act; cbn [negb].
  - destruct (incumbent default argmin_strings rows) as [inc|]; cbn [bind]; [|discriminate].
    destruct how; cbn; [destruct (nearest_distance dist rows inc); cbn; [|discriminate]|..]; intros [= <-]; cbn;
    (split; [exact V|]; split; [discriminate|]; split; [reflexivity|]; eauto).
  - intros [= <-]. cbn. split; [|split; [reflexivity|split; [reflexivity|eauto]]].
    destruct V as (p & i & r & -> & P & I & RR & S1). cbn. exists (p + i), 0, r.
    split; [reflexivity|]. repeat split; try lra.
Qed.
End Weights.
