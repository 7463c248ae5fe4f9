(** The sampling arguments of PriorBand, from the trials. *)
From Coq Require Import Lqa.
From Verif Require Export Pb_proofs Pb_inc_proofs.
Open Scope nat_scope.

Section Args.
Variable lg : Q -> nat -> Z.
Context {H : Type}.
Variable argsort : list fl -> list nat.
Variable default : H.
Variable score : H -> H -> H -> Q * Q.
Variable dist : H -> H -> Q.
Variable argmin_strings : list perf -> res nat.
Implicit Types (rows : list (row H)) (ts : list (strial H)).

Lemma rungs_nonneg f eta s b : never_above lg -> legal f -> 2 <= eta -> make_bracket lg f eta s = Ok b ->
  forall r c, nget r (b_rungs b) = Some c -> (0 <= c)%Q.
Proof.
  intros NA LG E M r c N. destruct (ladder_lemma lg f eta s b NA LG E M) as (_ & _ & L & _).
  destruct (L r c N) as [A _]. destruct LG as (P & _). lra.
Qed.
Lemma upper_pos f : legal f -> (0 < f_upper f)%Q.
Proof. intros (A & B & _). lra. Qed.

Lemma args_valid f eta s s' b0 b o ts t st how rung a : never_above lg -> legal f -> 2 <= eta ->
  make_bracket lg f eta s = Ok b0 -> make_bracket lg f eta s' = Ok b ->
  (st = Dynamic -> permutes argsort /\ densities score /\ scored score) ->
  pb_args argsort default score dist argmin_strings o t st how f eta b0 b ts rung = Ok a ->
  valid (a_weights a) /\ (a_inc a = None -> w_inc (a_weights a) = Num 0).
Proof.
  intros NA LG E M0 M D A. unfold pb_args in A. destruct (observe _ _ _ _) as [tb|]; cbn [bind] in A; [|discriminate].
  apply set_valid in A; auto; [|lia|apply upper_pos; auto|eapply rungs_nonneg; eauto]. destruct A as (V & I & _). auto.
Qed.

Lemma args_activation f eta s s' b0 b o ts tb t st how rung a : never_above lg -> legal f -> 2 <= eta ->
  make_bracket lg f eta s = Ok b0 -> make_bracket lg f eta s' = Ok b ->
  observe o (b_min b0) (b_max b0) ts = Ok tb ->
  pb_args argsort default score dist argmin_strings o t st how f eta b0 b ts rung = Ok a ->
  forall size budget budget0,
    (forall r, b_min b <= r <= b_max b -> nget r (b_rungs b) = Some (budget r) /\ nget r (b_sizes b) = Some (size r)) ->
    (forall r, b_min b0 <= r <= b_max b0 -> nget r (b_rungs b0) = Some (budget0 r)) ->
  (a_inc a <> None <->
   (stop_cost size budget (b_min b) (b_max b - b_min b) <=
    spent budget0 (t_rows tb))%Q /\
   exists u, In u ts /\ finished u /\ snd (st_id u) = b_max b0).
Proof.
  intros NA LG E M0 M OB A size budget budget0 G G0.
  destruct (active_lemma lg f eta s s' b0 b o ts tb NA LG E M0 M OB) as (cost & used & C & U & _ & act & AC & AI).
  destruct (cost_lemma lg f eta s' b NA LG E M) as (c' & C' & CE). assert (c' = cost) by congruence. subst c'.
  destruct (used_total (b_rungs b0) (t_rows tb) budget0) as (u' & U' & UE).
  { intros x I N. apply G0. eapply table_rungs; eauto. }
  assert (u' = used) by congruence. subst u'.
  unfold spent. rewrite <- (CE size budget G), <- UE, <- AI.
  unfold pb_args in A. rewrite OB in A. cbn [bind] in A. unfold set_sampling_weights_and_inc in A.
  destruct (calc_sampling_args _ _ _ _ _ _ _ _ _ _ _ _) as [w|]; cbn [bind] in A; [|discriminate].
  rewrite AC in A. cbn [bind] in A. destruct act; cbn [negb] in A.
  - destruct (incumbent default argmin_strings (t_rows tb)) as [inc|]; cbn [bind] in A; [|discriminate].
    destruct how; cbn [bind] in A; [destruct (nearest_distance dist (t_rows tb) inc); cbn [bind] in A; [|discriminate]|..];
    injection A as <-; cbn [a_inc]; intuition congruence.
  - injection A as <-. cbn [a_inc]. intuition congruence.
Qed.

Lemma args_incumbent f eta b0 b o ts tb t st how rung a h : o_ignore_errors o = false ->
  observe o (b_min b0) (b_max b0) ts = Ok tb -> t_rows tb <> [] ->
  pb_args argsort default score dist argmin_strings o t st how f eta b0 b ts rung = Ok a -> a_inc a = Some h ->
  exists x, best_row (t_rows tb) x /\ r_hps x = h.
Proof.
  intros IG OB NE A AH. unfold pb_args in A. rewrite OB in A. cbn [bind] in A. unfold set_sampling_weights_and_inc in A.
  destruct (calc_sampling_args _ _ _ _ _ _ _ _ _ _ _ _) as [w|]; cbn [bind] in A; [|discriminate].
  destruct (is_activate_inc _ _ _ _) as [act|]; cbn [bind] in A; [|discriminate].
  destruct act; cbn [negb] in A; [|injection A as <-; discriminate].
  destruct (incumbent default argmin_strings (t_rows tb)) as [inc|] eqn:F; cbn [bind] in A; [|discriminate].
  assert (inc = h).
  { destruct how; cbn [bind] in A; [destruct (nearest_distance dist (t_rows tb) inc); cbn [bind] in A; [|discriminate]|..];
    injection A as <-; cbn [a_inc] in AH; congruence. }
  subst h. unfold incumbent in F. destruct (find_incumbent argmin_strings 0 None (t_rows tb)) as [y|] eqn:Y; cbn [bind] in F; [|discriminate].
  destruct y as [x|].
  - injection F as <-. exists x. split; auto. eapply find_best; eauto. eapply table_no_errors; eauto.
  - exfalso. unfold find_incumbent in Y. cbn [rung_loop bind] in Y. destruct (t_rows tb); [congruence|].
    destruct (nanargmin _ _); cbn [bind] in Y; [|discriminate]. destruct (nth_error _ _); discriminate.
Qed.

(** The parts of the weights, given [raw] *)
Lemma args_parts f eta s s' b0 b o ts tb t st how rung a : never_above lg -> legal f -> 2 <= eta ->
  make_bracket lg f eta s = Ok b0 -> make_bracket lg f eta s' = Ok b ->
  observe o (b_min b0) (b_max b0) ts = Ok tb ->
  (st = Dynamic -> permutes argsort /\ densities score /\ scored score) ->
  pb_args argsort default score dist argmin_strings o t st how f eta b0 b ts rung = Ok a ->
  exists raw p i r, raw_prior_weight t eta (length (b_rungs b0)) rung = Ok raw /\ (1 <= raw)%Q /\
    a_weights a = mkW (Num p) (Num i) (Num r) /\ r = (1 / (raw + 1))%Q /\
    exists x y, prior_to_incumbent_ratio argsort default score argmin_strings st f eta b0
        (rung_histories o (b_min b0) (b_max b0) ts) (t_rows tb) = Ok (Num x, Num y) /\ (x + y == 1)%Q /\
      match a_inc a with
      | None => (i == 0 /\ p == raw / (raw + 1))%Q
      | Some _ => (p == x * (raw / (raw + 1)) /\ i == y * (raw / (raw + 1)))%Q
      end.
Proof.
  intros NA LG E M0 M OB D A. unfold pb_args in A. rewrite OB in A. cbn [bind] in A. unfold set_sampling_weights_and_inc in A.
  destruct (calc_sampling_args _ _ _ _ _ _ _ _ _ _ _ _) as [w|] eqn:CS; cbn [bind] in A; [|discriminate].
  apply calc_valid in CS; auto; [|lia|apply upper_pos; auto|eapply rungs_nonneg; eauto].
  destruct CS as (_ & raw & R & WR & x & y & PI & WP & WI & X0 & Y0 & XY & R1).
  destruct w as [wp wi wr]. cbn [w_prior w_inc w_random] in WR, WP, WI. subst wp wi wr.
  destruct (is_activate_inc _ _ _ _) as [act|]; cbn [bind] in A; [|discriminate].
  destruct act; cbn [negb] in A.
  - destruct (incumbent default argmin_strings (t_rows tb)) as [inc|]; cbn [bind] in A; [|discriminate].
    assert (AW : a_weights a = mkW (Num (x * (raw / (raw + 1)))%Q) (Num (y * (raw / (raw + 1)))%Q) (Num (1 / (raw + 1))%Q) /\ a_inc a = Some inc).
    { destruct how; cbn [bind] in A; [destruct (nearest_distance dist (t_rows tb) inc); cbn [bind] in A; [|discriminate]|..];
      injection A as <-; cbn; auto. }
    destruct AW as [AW AI]. exists raw. eexists _, _, _. split; [exact R|]. split; [exact R1|]. split; [exact AW|].
    split; [reflexivity|]. exists x, y. rewrite AI. split; auto. split; auto. split; reflexivity.
  - injection A as <-. cbn [a_weights a_inc w_prior w_inc w_random nadd]. exists raw. eexists _, _, _. split; [exact R|]. split; [exact R1|].
    split; [reflexivity|]. split; [reflexivity|]. exists x, y. split; auto. split; auto. split; [reflexivity|].
    setoid_replace (x * (raw / (raw + 1)) + y * (raw / (raw + 1)))%Q with ((x + y) * (raw / (raw + 1)))%Q by ring.
    rewrite XY. ring.
Qed.
End Args.

(** ** Sampling with a model *)
Lemma model_always_raises {H} (m : modelling) n f b0 hist (rows : list (row H)) rung from_policy best :
  is_init_phase m n f b0 hist rows = Ok false ->
  exists e, sample_new_config true m n f b0 hist rows rung from_policy best = Err e.
Proof.
  intros I. unfold sample_new_config. cbn [negb]. rewrite I. cbn [bind]. destruct m.
  - destruct (active n b0 hist) as [[k|]|]; cbn [bind]; eauto. destruct (ngetitem k (b_rungs b0)); cbn; eauto.
  - destruct (ngetitem rung (b_rungs b0)); cbn [bind]; eauto. destruct (ngetitem rung hist) as [h|]; cbn [bind]; eauto.
    destruct h; cbn; eauto.
  - eauto.
Qed.
Lemma model_free {H} (m : modelling) n f b0 hist (rows : list (row H)) rung from_policy best mb :
  mb = false \/ is_init_phase m n f b0 hist rows = Ok true ->
  sample_new_config mb m n f b0 hist rows rung from_policy best = from_policy.
Proof.
  unfold sample_new_config. intros [->|I]; auto. destruct mb; auto. cbn [negb]. rewrite I. reflexivity.
Qed.

Lemma active_spec n lo hi hist : lo <= hi -> (forall k, lo <= k <= hi -> exists h, nget k hist = Some h) ->
  forall m, m <= S hi - lo -> exists r, active_rung n lo hist m = Ok r /\
  match r with
  | Some k => lo <= k < lo + m /\ (exists h, nget k hist = Some h /\ n <= length h) /\
      forall j h, k < j < lo + m -> nget j hist = Some h -> length h < n
  | None => forall j h, lo <= j < lo + m -> nget j hist = Some h -> length h < n
  end.
Proof.
  intros LE G. induction m as [|m IH]; intros L; cbn [active_rung].
  - exists None. split; auto. intros; lia.
  - destruct (G (lo + m)) as [h N]; [lia|]. unfold ngetitem. rewrite N. cbn [bind].
    destruct (Nat.leb_spec n (length h)) as [A|A].
    + exists (Some (lo + m)). split; auto. split; [lia|]. split; [eauto|]. intros; lia.
    + destruct IH as (r & R & S0); [lia|]. exists r. split; auto. destruct r as [k|].
      * destruct S0 as (B & C & D). split; [lia|]. split; auto. intros j h' J X.
        destruct (Nat.eq_dec j (lo + m)) as [->|]; [congruence|]. apply (D j h'); auto. lia.
      * intros j h' J X. destruct (Nat.eq_dec j (lo + m)) as [->|]; [congruence|]. apply (S0 j h'); auto. lia.
Qed.

(** ** The schedule *)
Section Schedule.
Variable lg : Q -> nat -> Z.
Context {H : Type}.
Variable argsort : list fl -> list nat.
Variable default : H.
Variable score : H -> H -> H -> Q * Q.
Variable dist : H -> H -> Q.
Variable argmin_strings : list perf -> res nat.
Implicit Types (rows : list (row H)) (ts : list (strial H)).

Lemma raw_schedule t eta m rung raw : 2 <= eta -> raw_prior_weight t eta (S m) rung = Ok raw -> (1 <= raw)%Q ->
  random_share t eta m rung (1 / (raw + 1)).
Proof.
  intros E. destruct t; cbn [raw_prior_weight random_share]; intros R R1.
  - assert (X : forall x y : Q, Ok x = Ok y -> x = y) by congruence. apply X in R. unfold qpow in R.
    set (q := inject_Z _) in *. clearbody q. subst q. field. lra.
  - unfold linspace in R. rewrite nth_error_map in R. destruct (nth_error (seq 0 (S m)) rung) as [i|] eqn:N; [|discriminate].
    cbn [option_map] in R. assert (X : forall x y : Q, Ok x = Ok y -> x = y) by congruence. apply X in R. clear X.
    assert (L : rung < S m) by (rewrite <- (seq_length (S m) 0); apply nth_error_Some; congruence).
    rewrite (nth_error_nth' _ 0) in N by (rewrite seq_length; auto). rewrite seq_nth in N by auto. injection N as N. cbn in N. subst i.
    replace (S m - 1) with m in R by lia. split; [lia|].
    destruct m as [|m].
    + left. split; auto. assert (rung = 0) by lia. subst rung. assert (RE : (raw == 1)%Q) by (rewrite <- R; change (qnat 0) with 0%Q; rewrite Qmult_0_l; reflexivity).
      rewrite RE. reflexivity.
    + right. split; [lia|]. assert (M : (0 < qnat (S m))%Q) by (rewrite qnat_S; pose proof (qnat_nonneg m); lra).
      assert (RE : (raw * qnat (S m) == qnat (S m) + qnat rung * (qnat eta - 1))%Q) by (rewrite <- R; field; lra).
      clear R. set (M' := qnat (S m)) in *. clearbody M'.
      assert (P : (0 < raw + 1)%Q) by lra.
      setoid_replace (1 / (raw + 1) * (2 * M' + qnat rung * (qnat eta - 1)))%Q
        with (1 / (raw + 1) * (M' + (M' + qnat rung * (qnat eta - 1))))%Q by ring.
      rewrite <- RE. field. lra.
  - injection R as <-. reflexivity.
  - discriminate.
Qed.

Lemma decay_schedule f eta used x y : legal f -> 2 <= eta -> (0 <= used)%Q ->
  ratio_decay used eta f = Ok (x, y) ->
  exists k : nat, (x * inject_Z (2 ^ Z.of_nat k) == 1)%Q /\
    (qnat k * (qnat eta * f_upper f) <= used)%Q /\ (used < qnat (S k) * (qnat eta * f_upper f))%Q.
Proof.
  intros LG E U. unfold ratio_decay, prior_weight_for_decay. pose proof (upper_pos f LG) as UP.
  assert (EP : (1 <= qnat eta)%Q) by (apply (qnat_le 1 eta); lia).
  assert (P : (0 < qnat eta * f_upper f)%Q) by nra.
  destruct (Qeq_bool (qnat eta * f_upper f) 0); cbn [bind]; [discriminate|].
  remember (Qfloor (used / (qnat eta * f_upper f))) as z eqn:ZE.
  assert (Z0 : (0 <= z)%Z).
  { subst z. change 0%Z with (Qfloor 0). apply Qfloor_resp_le. apply Qle_shift_div_l; lra. }
  assert (LO : (inject_Z z <= used / (qnat eta * f_upper f))%Q) by (subst z; apply Qfloor_le).
  assert (HI : (used / (qnat eta * f_upper f) < inject_Z (z + 1))%Q) by (subst z; apply Qlt_floor).
  clear ZE. destruct (negb (f_int f) && _)%bool; cbn [bind]; [discriminate|].
  set (d := inject_Z (2 ^ z)). intros EQ.
  assert (X : x = (/ d)%Q) by (clearbody d; injection EQ as <- _; reflexivity). subst x. clear EQ.
  exists (Z.to_nat z). unfold qnat at 1 3. rewrite Nat2Z.inj_succ, Z2Nat.id by auto. subst d.
  pose proof (two_pow_pos z Z0) as TP. split; [field; lra|].
  assert (QE : (used / (qnat eta * f_upper f) * (qnat eta * f_upper f) == used)%Q) by (field; split; lra).
  set (q := (used / (qnat eta * f_upper f))%Q) in *. set (v := (qnat eta * f_upper f)%Q) in *. clearbody q v.
  unfold Z.succ. split; nra.
Qed.

Lemma dynamic_schedule eta o lo hi ts tb rung : 2 <= eta -> lo <= rung <= hi ->
  (forall r, lo <= r <= hi -> length (history_at o ts r) < eta) ->
  ratio_dynamic argsort default score argmin_strings eta lo (rung_histories o lo hi ts) (t_rows (H := H) tb) rung =
  Ok (Num (qnat eta / (1 + qnat eta))%Q, Num (1 / (1 + qnat eta))%Q).
Proof.
  intros E R D. induction rung as [|r IH].
  - unfold ratio_dynamic, ngetitem. rewrite history_some by auto. cbn [bind].
    destruct (Nat.leb_spec eta (length (history_at o ts 0))) as [L|L]; [specialize (D 0 R); lia|].
    replace (0 =? lo) with true by (symmetry; apply Nat.eqb_eq; lia). reflexivity.
  - cbn [ratio_dynamic]. unfold ngetitem at 1. rewrite history_some by auto. cbn [bind].
    destruct (Nat.leb_spec eta (length (history_at o ts (S r)))) as [L|L]; [specialize (D (S r) R); lia|].
    destruct (Nat.eqb_spec (S r) lo); [reflexivity|]. apply IH. lia.
Qed.

Lemma few_history o ts k : length (history_at o ts k) <= finished_at ts k.
Proof.
  unfold history_at, finished_at. induction ts as [|u ts IH]; [auto|]. cbn [flat_map filter].
  unfold is_pending at 1. destruct (st_out u) eqn:O, (snd (st_id u) =? k); cbn [orb negb andb app]; auto;
  rewrite <- O; destruct (get_loss o (st_out u)); cbn [app length]; lia.
Qed.

Lemma args_exist f eta s s' b0 b o ts tb t st how rung budget : never_above lg -> legal f -> 2 <= eta ->
  make_bracket lg f eta s = Ok b0 -> make_bracket lg f eta s' = Ok b -> observe o (b_min b0) (b_max b0) ts = Ok tb ->
  o_ignore_errors o = false -> t <> OtherType -> st <> OtherStyle ->
  (forall r, b_min b0 <= r <= b_max b0 -> nget r (b_rungs b0) = Some (budget r)) ->
  (t = Linear -> rung <= b_max b0 - b_min b0) ->
  (st = Decay -> f_int f = true \/ (spent budget (t_rows tb) < 1024 * (qnat eta * f_upper f))%Q) ->
  (st = Dynamic -> (exists x, In x (t_rows tb) /\ is_nan (r_perf x) = false) \/
     forall r, b_min b0 <= r <= b_max b0 -> finished_at ts r < eta) ->
  (how = Hypersphere -> forall x, In x (t_rows tb) -> exists y, In y (t_rows tb) /\ (0 < dist (r_hps x) (r_hps y))%Q) ->
  exists a, pb_args argsort default score dist argmin_strings o t st how f eta b0 b ts rung = Ok a.
Proof.
  intros NA LG E M0 M OB IG T ST G LI DE DY HS. eapply args_total; eauto.
  - intros D. destruct (DE D) as [X|X]; [auto|]. right. intros u U.
    destruct (used_total (b_rungs b0) (t_rows tb) budget) as (u' & U' & UE).
    { intros z I N. apply G. eapply table_rungs; eauto. }
    assert (u' = u) by congruence. subst u'. rewrite UE. exact X.
  - intros D. destruct (DY D) as [X|X]; [auto|]. right. intros r R. specialize (X r R).
    pose proof (few_history o ts r). lia.
Qed.

Lemma decay_overflow f eta s b0 b o ts tb t how rung budget : never_above lg -> legal f -> 2 <= eta ->
  make_bracket lg f eta s = Ok b0 -> observe o (b_min b0) (b_max b0) ts = Ok tb ->
  (forall r, b_min b0 <= r <= b_max b0 -> nget r (b_rungs b0) = Some (budget r)) ->
  f_int f = false -> (1024 * (qnat eta * f_upper f) <= spent budget (t_rows tb))%Q ->
  t <> OtherType -> (t = Linear -> rung <= b_max b0 - b_min b0) ->
  pb_args argsort default score dist argmin_strings o t Decay how f eta b0 b ts rung = Err OverflowError.
Proof.
  intros NA LG E M0 OB G FI SP T LI.
  destruct (bracket_maps lg f eta s b0 NA LG E M0) as (_ & _ & LE & _ & LN & _).
  destruct (used_total (b_rungs b0) (t_rows tb) budget) as (u & U & UE).
  { intros z I N. apply G. eapply table_rungs; eauto. }
  unfold pb_args. rewrite OB. cbn [bind]. unfold set_sampling_weights_and_inc, calc_sampling_args.
  assert (RW : exists w, raw_prior_weight t eta (length (b_rungs b0)) rung = Ok w).
  { destruct t; cbn [raw_prior_weight]; eauto; [|congruence]. unfold linspace. rewrite nth_error_map.
    destruct (nth_error (seq 0 (length (b_rungs b0))) rung) eqn:N; cbn; [eauto|]. apply nth_error_None in N.
    rewrite seq_length, LN in N. specialize (LI eq_refl). lia. }
  destruct RW as [w W]. rewrite W. cbn [bind prior_to_incumbent_ratio]. rewrite U. cbn [bind].
  unfold ratio_decay, prior_weight_for_decay. pose proof (upper_pos f LG) as UP.
  assert (EP : (1 <= qnat eta)%Q) by (apply (qnat_le 1 eta); lia).
  assert (P : (0 < qnat eta * f_upper f)%Q) by nra.
  destruct (Qeq_bool (qnat eta * f_upper f) 0) eqn:Z; [apply Qeq_bool_eq in Z; lra|].
  rewrite FI. cbn [negb andb].
  assert (L : (1024 <= Qfloor (u / (qnat eta * f_upper f)))%Z).
  { change 1024%Z with (Qfloor (inject_Z 1024)). apply Qfloor_resp_le. apply Qle_shift_div_l; auto.
    rewrite UE. exact SP. }
  apply Z.leb_le in L. rewrite L. reflexivity.
Qed.

Lemma args_schedule f eta s s' b0 b o ts tb t st how rung a : never_above lg -> legal f -> 2 <= eta ->
  make_bracket lg f eta s = Ok b0 -> make_bracket lg f eta s' = Ok b ->
  observe o (b_min b0) (b_max b0) ts = Ok tb ->
  (st = Dynamic -> permutes argsort /\ densities score /\ scored score) ->
  pb_args argsort default score dist argmin_strings o t st how f eta b0 b ts rung = Ok a ->
  exists p i r, a_weights a = mkW (Num p) (Num i) (Num r) /\
    random_share t eta (b_max b0 - b_min b0) rung r /\
    match a_inc a with
    | None => (i == 0)%Q
    | Some _ =>
        match st with
        | Constant => (p == qnat eta * i)%Q
        | Decay => forall budget, (forall r, b_min b0 <= r <= b_max b0 -> nget r (b_rungs b0) = Some (budget r)) ->
            exists k : nat, (p * inject_Z (2 ^ Z.of_nat k) == p + i)%Q /\
            (qnat k * (qnat eta * f_upper f) <= spent budget (t_rows tb) < qnat (S k) * (qnat eta * f_upper f))%Q
        | Dynamic => (forall r, b_min b0 <= r <= b_max b0 ->
                        finished_at ts r < eta) ->
                     (p == qnat eta * i)%Q
        | OtherStyle => False
        end
    end.
Proof.
  intros NA LG E M0 M OB D A.
  destruct (args_parts lg argsort default score dist argmin_strings f eta s s' b0 b o ts tb t st how rung a NA LG E M0 M OB D A)
    as (raw & p & i & r & R & R1 & W & -> & x & y & PI & XY & PARTS).
  destruct (bracket_maps lg f eta s b0 NA LG E M0) as (size & budget & LE & _ & LN & G).
  exists p, i, (1 / (raw + 1))%Q. split; auto. split; [apply raw_schedule; auto; rewrite <- LN; auto|].
  destruct (a_inc a) as [h|]; [|tauto]. destruct PARTS as [PP II].
  assert (EP : (2 <= qnat eta)%Q) by (apply (qnat_le 2 eta); lia).
  assert (INJ : forall a b c d : Q, Ok (Num a, Num b) = Ok (Num c, Num d) -> a = c /\ b = d) by (intros ? ? ? ? [= -> ->]; auto).
  destruct st; cbn [prior_to_incumbent_ratio ratio_constant] in PI.
  - apply INJ in PI. destruct PI as [<- <-]. rewrite PP, II. field. split; lra.
  - intros budget' G'. destruct (resources_used (b_rungs b0) (t_rows tb)) as [u|] eqn:U; cbn [bind] in PI; [|discriminate].
    destruct (ratio_decay u eta f) as [[x' y']|] eqn:DE; cbn [bind] in PI; [|discriminate].
    apply INJ in PI. destruct PI as [-> ->].
    destruct (used_total (b_rungs b0) (t_rows tb) budget') as (u' & U' & UE).
    { intros z I N. apply G'. eapply table_rungs; eauto. }
    assert (u' = u) by congruence. subst u'.
    assert (U0 : (0 <= u)%Q) by (apply (resources_nonneg (b_rungs b0) (t_rows tb)); [exact (rungs_nonneg lg f eta s b0 NA LG E M0)|exact U]).
    destruct (decay_schedule f eta u x y LG E U0 DE) as (k & K1 & K2 & K3). exists k. unfold spent. rewrite <- UE.
    split; [|auto]. rewrite PP, II.
    setoid_replace (x * (raw / (raw + 1)) * inject_Z (2 ^ Z.of_nat k))%Q
      with (x * inject_Z (2 ^ Z.of_nat k) * (raw / (raw + 1)))%Q by ring. rewrite K1.
    setoid_replace (x * (raw / (raw + 1)) + y * (raw / (raw + 1)))%Q with ((x + y) * (raw / (raw + 1)))%Q by ring.
    rewrite XY. reflexivity.
  - intros FEW.
    assert (FEW' : forall k, b_min b0 <= k <= b_max b0 -> length (history_at o ts k) < eta).
    { intros k K. specialize (FEW k K). pose proof (few_history o ts k). lia. }
    rewrite (dynamic_schedule eta o (b_min b0) (b_max b0) ts tb (b_max b0) E (conj LE (le_n _)) FEW') in PI.
    apply INJ in PI. destruct PI as [<- <-]. rewrite PP, II. field. split; lra.
  - discriminate.
Qed.
End Schedule.

Lemma bracket_probs_ratio eta K s p t q : 1 <= eta ->
  nth_error (bracket_probs eta K) s = Some p -> nth_error (bracket_probs eta K) t = Some q ->
  (p * (qpow eta (K - t) * qnat (K - s + 1)) == q * (qpow eta (K - s) * qnat (K - t + 1)))%Q.
Proof.
  intros E P Q. apply bracket_probs_nth in P, Q. destruct P as [S1 ->], Q as [T1 ->].
  pose proof (bracket_sum_pos eta K E) as SP. set (z := qsum _) in *. clearbody z. unfold bracket_weight.
  assert (A : (0 < qnat (K - s + 1))%Q) by (rewrite Nat.add_1_r, qnat_S; pose proof (qnat_nonneg (K - s)); lra).
  assert (B : (0 < qnat (K - t + 1))%Q) by (rewrite Nat.add_1_r, qnat_S; pose proof (qnat_nonneg (K - t)); lra).
  set (a := qnat (K - s + 1)) in *. set (b := qnat (K - t + 1)) in *. clearbody a b. field. repeat split; lra.
Qed.

Lemma rank_sum_cons {H} (g : H -> Q) c l : (rank_sum g (c :: l) == qnat (S (length l)) * g c + rank_sum g l)%Q.
Proof.
  unfold rank_sum. cbn [length seq map qsum fold_right nth_error]. rewrite Nat.sub_0_r.
  apply Qplus_inj_l. rewrite <- seq_shift, map_map. apply Qeq_refl.
Qed.

Lemma dynamic_shares_l {H} argsort (default : H) score argmin eta lo hist rows inc r h idx cfgs :
  nget r hist = Some h -> eta <= length h -> incumbent default argmin rows = Ok inc ->
  argsort_perfs argsort (map snd h) = Ok idx ->
  Forall2 (fun i c => exists id x, nth_error (map fst h) i = Some id /\ find_row id rows = Some x /\ r_hps x = c)
    (firstn (Nat.max (length h / eta) eta) idx) cfgs ->
  let A := rank_sum (fun c => fst (score c default inc)) cfgs in
  let B := rank_sum (fun c => snd (score c default inc)) cfgs in
  (0 < A + B)%Q ->
  forall k, lo <= r -> (forall j, r < j <= r + k -> exists h', nget j hist = Some h' /\ length h' < eta) ->
  exists p i, ratio_dynamic argsort default score argmin eta lo hist rows (r + k) = Ok (Num p, Num i) /\
    (p * (A + B) == A)%Q /\ (i * (A + B) == B)%Q.
Proof.
  intros G L I X F A B P k LO. induction k as [|k IH]; intros K.
  - rewrite Nat.add_0_r. clear K.
    assert (S0 : exists l, scores default score rows inc (pick (map fst h) (firstn (Nat.max (length h / eta) eta) idx)) = Ok l /\
      (fst (weighted_sum l) == A)%Q /\ (snd (weighted_sum l) == B)%Q /\ length l = length cfgs).
    { clear P X. subst A B. induction F as [|i c is cs (id & x & N & FR & HC) F IH].
      - exists []. split; [reflexivity|]. split; [reflexivity|]. split; reflexivity.
      - destruct IH as (l & S0 & A0 & B0 & L0).
        exists (score c default inc :: l). unfold pick. cbn [flat_map]. rewrite N. cbn [app scores].
        rewrite FR. fold (pick (map fst h) is). rewrite S0. cbn [bind]. subst c. split; [reflexivity|].
        cbn [weighted_sum]. destruct (weighted_sum l) as [a b]. cbn [fst snd length] in *. rewrite L0.
        split; [|split; [|reflexivity]]; rewrite rank_sum_cons; [rewrite A0|rewrite B0]; reflexivity. }
    destruct S0 as (l & S0 & A0 & B0 & L0).
    assert (R : ratio_dynamic argsort default score argmin eta lo hist rows r =
      (let '(a, b) := weighted_sum l in Ok (share a (a + b)%Q, share b (a + b)%Q))).
    { destruct r; cbn [ratio_dynamic]; unfold ngetitem; rewrite G; cbn [bind];
      (destruct (Nat.leb_spec eta (length h)); [|lia]); rewrite I; cbn [bind]; rewrite X; cbn [bind]; rewrite S0; reflexivity. }
    rewrite R. destruct (weighted_sum l) as [a b]. cbn [fst snd] in *. unfold share.
    destruct (Qeq_bool (a + b) 0) eqn:Z.
    + apply Qeq_bool_eq in Z. exfalso. lra.
    + eexists _, _. split; [reflexivity|]. rewrite <- A0, <- B0 in *. split; field; lra.
  - destruct (K (r + S k)) as (h' & G' & L'); [lia|]. rewrite Nat.add_succ_r. cbn [ratio_dynamic].
    rewrite Nat.add_succ_r in G'. unfold ngetitem. rewrite G'. cbn [bind].
    destruct (Nat.leb_spec eta (length h')); [lia|]. destruct (Nat.eqb_spec (S (r + k)) lo); [lia|].
    apply IH. intros j J. apply K. lia.
Qed.

Lemma joint_design_l {H} n f b0 hist (rows : list (row H)) budget : (0 < f_upper f)%Q ->
  (forall x, In x rows -> is_nan (r_perf x) = false -> nget (r_rung x) (b_rungs b0) = Some (budget (r_rung x))) ->
  exists x, is_init_phase Joint n f b0 hist rows = Ok x /\
    (x = true <-> (spent budget rows < qnat n * f_upper f)%Q).
Proof.
  intros U B. destruct (used_total (b_rungs b0) rows budget B) as (u & R & E). unfold is_init_phase. rewrite R. cbn [bind].
  eexists. split; [reflexivity|]. fold (spent budget rows) in E.
  assert (D : (u / f_upper f * f_upper f == u)%Q) by (field; lra).
  destruct (Qle_bool (qnat n) (u / f_upper f)) eqn:Q0; cbn [negb].
  - apply Qle_bool_iff in Q0. split; [discriminate|]. intros S0. rewrite <- E in S0. exfalso.
    set (q := (u / f_upper f)%Q) in *. clearbody q. nra.
  - split; [intros _|reflexivity]. rewrite <- E.
    assert (~ (qnat n <= u / f_upper f)%Q) by (intros X; apply Qle_bool_iff in X; congruence).
    set (q := (u / f_upper f)%Q) in *. clearbody q. nra.
Qed.
