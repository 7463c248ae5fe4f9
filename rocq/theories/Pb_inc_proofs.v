(** The incumbent, the cost of a bracket, and when an answer exists. *)
From Verif Require Export Pb_proofs Sh_table_proofs.
Open Scope nat_scope.

(** ** The incumbent *)
Lemma ltb_trans_false x y z : y <> FNaN -> fl_ltb x y = false -> fl_ltb y z = false -> fl_ltb x z = false.
Proof.
  destruct x, y, z; cbn; intros; try congruence; auto.
  rewrite Z.ltb_ge in *. lia.
Qed.
Lemma ltb_asym x y : fl_ltb x y = true -> fl_ltb y x = false.
Proof. destruct x, y; cbn; intros; try congruence; auto. rewrite Z.ltb_lt in H. apply Z.ltb_ge. lia. Qed.
Lemma ltb_irrefl x : fl_ltb x x = false.
Proof. destruct x; cbn; auto. apply Z.ltb_irrefl. Qed.

Definition good_best (l : list perf) (r : option (nat * fl)) : Prop :=
  match r with
  | None => forall p, In p l -> match p with PNum x => x = FNaN | PErr => True end
  | Some (i, v) => nth_error l i = Some (PNum v) /\ v <> FNaN /\
                   forall w, In (PNum w) l -> fl_ltb w v = false
  end.

Lemma argmin_from_good l pre best : good_best pre best ->
  good_best (pre ++ l) (argmin_from (length pre) best l).
Proof.
  revert pre best; induction l as [|p l IH]; intros pre best G; cbn [argmin_from]; [rewrite app_nil_r; auto|].
  replace (pre ++ p :: l) with ((pre ++ [p]) ++ l) by (rewrite <- app_assoc; reflexivity).
  replace (S (length pre)) with (length (pre ++ [p])) by (rewrite app_length; cbn; lia).
  apply IH.
  assert (SK : match p with PNum x => x = FNaN | PErr => True end -> good_best (pre ++ [p]) best).
  { intros S0. destruct best as [[i v]|]; cbn in *.
    - destruct G as (A & B & C). split; [rewrite nth_error_app1; auto; apply nth_error_Some; congruence|].
      split; auto. intros w I. apply in_app_iff in I. destruct I as [I|[EQ|[]]]; auto. subst p. subst w. reflexivity.
    - intros q I. apply in_app_iff in I. destruct I as [I|[EQ|[]]]; [exact (G q I)|]. rewrite <- EQ. exact S0. }
  assert (NEW : forall x, p = PNum x -> x <> FNaN -> (forall w, In (PNum w) pre -> fl_ltb w x = false) ->
                good_best (pre ++ [p]) (Some (length pre, x))).
  { intros x -> NN M. cbn. split; [rewrite nth_error_app2, Nat.sub_diag by lia; reflexivity|]. split; auto.
    intros w I. apply in_app_iff in I. destruct I as [I|[[= <-]|[]]]; auto. apply ltb_irrefl. }
  assert (OLD : forall x, p = PNum x -> x <> FNaN ->
     good_best (pre ++ [p]) (match best with Some (_, y) => if fl_ltb x y then Some (length pre, x) else best | None => Some (length pre, x) end)).
  { intros x EQ NN. destruct best as [[i y]|].
    - destruct G as (A & B & C). destruct (fl_ltb x y) eqn:L.
      + apply NEW; auto. intros w I. apply (ltb_trans_false w y x); auto. apply ltb_asym. auto.
      + cbn. split; [rewrite nth_error_app1; auto; apply nth_error_Some; congruence|]. split; auto.
        intros w I. apply in_app_iff in I. destruct I as [I|[E2|[]]]; auto. rewrite EQ in E2. injection E2 as ->. auto.
    - apply NEW; auto. intros w I. apply G in I. subst w. reflexivity. }
  destruct p as [x|]; [|apply SK; exact I].
  destruct x; [apply SK; reflexivity|..]; apply OLD; auto; discriminate.
Qed.

Section Inc.
Context {H : Type}.
Variable default : H.
Variable argmin_strings : list perf -> res nat.
Implicit Types (rows : list (row H)).

Definition no_errors rows : Prop := forall x, In x rows -> is_err (r_perf x) = false.

Lemma no_errors_exists rows : no_errors rows -> existsb is_err (map r_perf rows) = false.
Proof.
  intros N. destruct (existsb is_err (map r_perf rows)) eqn:E; auto. apply existsb_exists in E.
  destruct E as (p & I & P). apply in_map_iff in I. destruct I as (x & <- & I). rewrite (N x I) in P. discriminate.
Qed.

Lemma find_best fuel rows x : no_errors rows ->
  find_incumbent argmin_strings fuel None rows = Ok (Some x) -> best_row rows x.
Proof.
  intros N. unfold find_incumbent. destruct fuel; cbn [rung_loop bind];
  (destruct rows as [|r0 rows]; [discriminate|]; set (l := r0 :: rows) in *; unfold nanargmin;
   rewrite (no_errors_exists l N);
   pose proof (argmin_from_good (map r_perf l) [] None) as G; cbn [length app] in G;
   specialize (G (fun p (I : In p []) => match I with end));
   destruct (argmin_from 0 None (map r_perf l)) as [[i v]|]; cbn [bind]; [|discriminate];
   destruct G as (A & B & C); rewrite nth_error_map in A;
   destruct (nth_error l i) as [y|] eqn:E; [|discriminate]; intros [= <-]; cbn in A; injection A as A;
   split; [eapply nth_error_In; eauto|]; exists v; split; auto; split; auto;
   intros z w I Z; apply C; rewrite <- Z; apply in_map; auto).
Qed.

Lemma find_exists fuel rows x : no_errors rows -> In x rows -> is_nan (r_perf x) = false ->
  exists y, find_incumbent argmin_strings fuel None rows = Ok (Some y).
Proof.
  intros N I X. unfold find_incumbent.
  replace (rung_loop fuel None rows rows) with (Ok rows) by (destruct fuel; reflexivity). cbn [bind].
  destruct rows as [|r0 rows]; [contradiction|]. set (l := r0 :: rows) in *. unfold nanargmin.
  rewrite (no_errors_exists l N).
  pose proof (argmin_from_good (map r_perf l) [] None) as G. cbn [length app] in G.
  specialize (G (fun p (I : In p []) => match I with end)).
  destruct (argmin_from 0 None (map r_perf l)) as [[i v]|]; cbn [bind].
  - destruct G as (A & _). rewrite nth_error_map in A. destruct (nth_error l i); [eauto|discriminate].
  - specialize (G (r_perf x) (in_map _ _ _ I)). specialize (N x I).
    destruct (r_perf x) as [y|]; [|discriminate]. subst y. discriminate.
Qed.

Lemma find_none fuel rows : no_errors rows -> rows <> [] -> (forall x, In x rows -> is_nan (r_perf x) = true) ->
  find_incumbent argmin_strings fuel None rows = Err ValueError.
Proof.
  intros N NE X. unfold find_incumbent.
  replace (rung_loop fuel None rows rows) with (Ok rows) by (destruct fuel; reflexivity). cbn [bind].
  destruct rows as [|r0 rows]; [congruence|]. set (l := r0 :: rows) in *. unfold nanargmin.
  rewrite (no_errors_exists l N).
  pose proof (argmin_from_good (map r_perf l) [] None) as G. cbn [length app] in G.
  specialize (G (fun p (I : In p []) => match I with end)).
  destruct (argmin_from 0 None (map r_perf l)) as [[i v]|]; cbn [bind]; auto.
  destruct G as (A & B & _). apply nth_error_In in A. apply in_map_iff in A. destruct A as (x & E & I).
  apply X in I. rewrite E in I. destruct v; try discriminate. congruence.
Qed.

Lemma rung_forever fuel r rows idxs : rung_loop fuel (Some r) rows idxs = Err OutOfFuel.
Proof. revert idxs; induction fuel as [|n IH]; intros; cbn [rung_loop]; auto. Qed.
Lemma find_with_rung fuel r rows : find_incumbent argmin_strings fuel (Some r) rows = Err OutOfFuel.
Proof. unfold find_incumbent. rewrite rung_forever. reflexivity. Qed.
End Inc.

(** ** Costs *)
Lemma insert_nat_last x l : (forall y, In y l -> y < x) -> insert_nat x l = l ++ [x].
Proof.
  induction l as [|y l IH]; intros P; cbn [insert_nat app]; auto.
  assert (y < x) by (apply P; left; auto). destruct (Nat.leb_spec x y); [lia|]. f_equal. apply IH.
  intros; apply P; right; auto.
Qed.
Lemma sort_keys f eta s n b : sort_nat (map fst (fill_rungs f eta s n b)) = seq s n.
Proof.
  revert b; induction n as [|n IH]; intros b; cbn [fill_rungs map fst sort_nat fold_right]; auto.
  fold (sort_nat (map fst (fill_rungs f eta s n (b / inject_Z (Z.of_nat eta))))). rewrite IH, insert_nat_last.
  - rewrite Nat.add_comm, <- seq_S. reflexivity.
  - intros y I. apply in_seq in I. lia.
Qed.
Lemma keys_length f eta s n b : length (fill_rungs f eta s n b) = n.
Proof. revert b; induction n as [|n IH]; intros; cbn [fill_rungs length]; auto. Qed.

Fixpoint extra (size : nat -> nat) (budget : nat -> Q) (lo n : nat) : Q :=
  match n with
  | O => 0%Q
  | S n' => (qnat (size (S lo)) * (budget (S lo) - budget lo) + extra size budget (S lo) n')%Q
  end.
Lemma continuations_ok b size budget lo n :
  (forall r, lo <= r <= lo + n -> nget r (b_rungs b) = Some (budget r) /\ nget r (b_sizes b) = Some (size r)) ->
  continuations b (seq (S lo) n) = Ok (extra size budget lo n).
Proof.
  revert lo; induction n as [|n IH]; intros lo P; cbn [seq continuations extra]; auto.
  unfold ngetitem. destruct (P (S lo)) as [A B]; [lia|]. destruct (P lo) as [C _]; [lia|].
  rewrite A, B, C. cbn [bind]. rewrite IH by (intros; apply P; lia). reflexivity.
Qed.
Lemma stop_cost_extra size budget lo n :
  (stop_cost size budget lo n == qnat (size lo) * budget lo + extra size budget lo n)%Q.
Proof.
  revert lo; induction n as [|n IH]; intros lo; cbn [stop_cost extra]; [ring|]. rewrite IH. ring.
Qed.

Section Cost.
Variable lg : Q -> nat -> Z.

Lemma bracket_maps f eta s b : never_above lg -> legal f -> 2 <= eta -> make_bracket lg f eta s = Ok b ->
  exists size budget, b_min b <= b_max b /\ sort_nat (map fst (b_rungs b)) = seq (b_min b) (S (b_max b - b_min b)) /\
  length (b_rungs b) = S (b_max b - b_min b) /\
  forall r, b_min b <= r <= b_max b -> nget r (b_rungs b) = Some (budget r) /\ nget r (b_sizes b) = Some (size r) /\
    (0 < budget r)%Q.
Proof.
  intros NA LG E M. destruct (make_bracket_inv lg f eta s b NA LG E M) as (A & N & RM & CM & MI & MA).
  destruct (ladder_lemma lg f eta s b NA LG E M) as (L1 & L2 & L3 & _).
  unfold get_config_map in CM. destruct (Z.leb _ _); [|discriminate]. injection CM as CM.
  exists (fun r => match nget r (b_sizes b) with Some n => n | None => 0 end),
         (fun r => match nget r (b_rungs b) with Some x => x | None => 0%Q end).
  split; auto. rewrite RM at 1 2. rewrite sort_keys, keys_length.
  replace (S (b_max b - b_min b)) with (nrungs lg f eta s) by lia. rewrite MI at 1. split; auto. split; auto.
  intros r R. destruct (proj2 (L2 r) R) as [x X]. rewrite X. split; auto. split.
  - rewrite <- CM. rewrite sizes_get by auto.
    replace (s <=? r) with true by (symmetry; apply Nat.leb_le; lia).
    replace (r <? s + nrungs lg f eta s) with true by (symmetry; apply Nat.ltb_lt; lia). reflexivity.
  - destruct (L3 r x X) as [U _]. destruct LG as (P & _). eapply Qlt_le_trans; eauto.
Qed.

Lemma cost_lemma f eta s b : never_above lg -> legal f -> 2 <= eta -> make_bracket lg f eta s = Ok b ->
  exists c, bracket_cost b = Ok c /\
  forall size budget,
    (forall r, b_min b <= r <= b_max b -> nget r (b_rungs b) = Some (budget r) /\ nget r (b_sizes b) = Some (size r)) ->
    (c == stop_cost size budget (b_min b) (b_max b - b_min b))%Q.
Proof.
  intros NA LG E M. destruct (bracket_maps f eta s b NA LG E M) as (size & budget & LE & SK & _ & G).
  assert (C : forall size budget,
    (forall r, b_min b <= r <= b_max b -> nget r (b_rungs b) = Some (budget r) /\ nget r (b_sizes b) = Some (size r)) ->
    bracket_cost b = Ok (qnat (size (b_min b)) * budget (b_min b) + extra size budget (b_min b) (b_max b - b_min b))%Q).
  { clear size budget G. intros size budget G. unfold bracket_cost, ngetitem. destruct (G (b_min b)) as [A B]; [lia|].
    rewrite A, B. cbn [bind]. rewrite SK. cbn [seq tl].
    rewrite (continuations_ok b size budget) by (intros; apply G; lia). reflexivity. }
  assert (C1 := C size budget (fun r R => match G r R with conj X (conj Y _) => conj X Y end)).
  eexists. split; [exact C1|]. intros size' budget' G'. specialize (C size' budget' G'). rewrite C1 in C.
  assert (X : forall x y : Q, Ok x = Ok y -> x = y) by congruence. apply X in C. rewrite stop_cost_extra, C. reflexivity.
Qed.

Lemma extra_nonneg size budget lo n : (forall r, lo <= r < lo + n -> (budget r <= budget (S r))%Q) ->
  (0 <= extra size budget lo n)%Q.
Proof.
  revert lo; induction n as [|n IH]; intros lo P; cbn [extra]; [apply Qle_refl|].
  apply (Qplus_le_compat 0 _ 0); [|apply IH; intros; apply P; lia].
  apply Qmult_le_0_compat; [apply qnat_nonneg|]. apply (proj1 (Qle_minus_iff _ _)). apply P. lia.
Qed.

Lemma cost_positive f eta s b c : never_above lg -> legal f -> 2 <= eta -> make_bracket lg f eta s = Ok b ->
  bracket_cost b = Ok c -> (0 < c)%Q.
Proof.
  intros NA LG E M BC. destruct (bracket_maps f eta s b NA LG E M) as (size & budget & LE & SK & _ & G).
  destruct (cost_lemma f eta s b NA LG E M) as (c' & C & SC). assert (c' = c) by congruence. subst c'.
  rewrite (SC size budget) by (intros r R; destruct (G r R) as (A & B & _); auto). rewrite stop_cost_extra.
  destruct (make_bracket_inv lg f eta s b NA LG E M) as (A & N & RM & CM & MI & MA).
  destruct (ladder_lemma lg f eta s b NA LG E M) as (_ & _ & _ & _ & L5).
  assert (SP : 1 <= size (b_min b)).
  { unfold get_config_map in CM. destruct (Z.leb _ _); [|discriminate]. injection CM as CM.
    destruct (G (b_min b)) as (_ & B & _); [lia|]. rewrite <- CM in B. rewrite sizes_get in B by auto.
    rewrite MI in B. rewrite Nat.leb_refl, Nat.sub_diag in B.
    replace (s <? s + nrungs lg f eta s) with true in B by (symmetry; apply Nat.ltb_lt; lia). cbn [andb] in B.
    rewrite Nat.pow_0_r, Nat.div_1_r in B. rewrite MI.
    set (x := Z.to_nat (stopping_rate_limit lg f eta + 1) / (Z.to_nat (stopping_rate_limit lg f eta - Z.of_nat s) + 1)) in B.
    set (y := eta ^ _) in B.
    assert (1 <= x) by (apply Nat.div_le_lower_bound; lia).
    assert (1 <= y) by (subst y; apply Nat.neq_0_lt_0, Nat.pow_nonzero; lia).
    clearbody x y. injection B as B. rewrite <- B. nia. }
  apply (Qlt_le_trans _ (budget (b_min b))); [apply G; lia|].
  rewrite <- (Qplus_0_r (budget (b_min b))) at 1. apply Qplus_le_compat.
  - rewrite <- (Qmult_1_l (budget (b_min b))) at 1.
    apply Qmult_le_compat_r; [apply (qnat_le 1); auto|apply Qlt_le_weak, G; lia].
  - apply extra_nonneg. intros r R. destruct (G r) as (X & _); [lia|]. destruct (G (S r)) as (Y & _); [lia|].
    destruct (L5 r _ _ X Y) as [L _]. apply Qlt_le_weak. auto.
Qed.

(** ** Answers *)
Section Total.
Context {H : Type}.
Variable argsort : list fl -> list nat.
Variable default : H.
Variable score : H -> H -> H -> Q * Q.
Variable dist : H -> H -> Q.
Variable argmin_strings : list perf -> res nat.
Implicit Types (rows : list (row H)) (ts : list (strial H)).

Lemma get_loss_no_err o x p : o_ignore_errors o = false -> get_loss o x = Ok p -> is_err p = false.
Proof.
  intros IG. unfold get_loss. rewrite IG. destruct x; try (intros [= <-]; reflexivity);
  destruct (o_loss_on_error o); try discriminate; intros [= <-]; reflexivity.
Qed.

Lemma table_no_errors o lo hi ts tb : o_ignore_errors o = false -> observe o lo hi ts = Ok tb -> no_errors (t_rows tb).
Proof.
  intros IG OB x I. destruct (observe_spec _ _ _ _ _ OB) as (_ & _ & S0).
  destruct (S0 x I) as [[(t & _ & _ & _ & G & _) _]|(P & _)].
  - eapply get_loss_no_err; eauto.
  - rewrite P. reflexivity.
Qed.

Lemma table_rungs o lo hi ts tb x : observe o lo hi ts = Ok tb -> In x (t_rows tb) -> is_nan (r_perf x) = false ->
  lo <= r_rung x <= hi.
Proof.
  intros OB I N. destruct (observe_spec _ _ _ _ _ OB) as (_ & _ & S0).
  destruct (S0 x I) as [[(t & T & ID & FI & _) _]|(P & _)]; [|rewrite P in N; discriminate].
  destruct (proj1 (observe_ok o lo hi ts) (ex_intro _ tb OB) t T FI) as [B _]. rewrite ID in B. exact B.
Qed.

Lemma used_total rungs rows (budget : nat -> Q) :
  (forall x, In x rows -> is_nan (r_perf x) = false -> nget (r_rung x) rungs = Some (budget (r_rung x))) ->
  exists u, resources_used rungs rows = Ok u /\
    (u == qsum (map (fun x => budget (r_rung x)) (filter (fun x => negb (is_nan (r_perf x))) rows)))%Q.
Proof.
  induction rows as [|x rows IH]; intros P; cbn [resources_used filter map qsum fold_right]; [eexists; split; [reflexivity|reflexivity]|].
  destruct IH as (u & U & E); [intros; apply P; auto; right; auto|].
  destruct (is_nan (r_perf x)) eqn:N; cbn [negb map qsum fold_right]; [eauto|].
  unfold ngetitem. rewrite (P x (or_introl eq_refl) N). cbn [bind]. rewrite U. cbn [bind].
  eexists. split; [reflexivity|]. cbn [map fold_right]. unfold qsum in E. rewrite E. reflexivity.
Qed.

Lemma nget_map_seq {A} (g : nat -> A) k lo n : lo <= k < lo + n -> nget k (map (fun i => (i, g i)) (seq lo n)) = Some (g k).
Proof.
  revert lo; induction n as [|n IH]; intros lo L; [lia|]. cbn [seq map nget].
  destruct (Nat.eqb_spec k lo) as [->|]; auto. apply IH. lia.
Qed.

Lemma history_some o lo hi ts k : lo <= k <= hi -> nget k (rung_histories o lo hi ts) = Some (history_at o ts k).
Proof. intros L. apply (nget_map_seq (history_at o ts)). lia. Qed.

Lemma history_in o ts k c p : In (c, p) (history_at o ts k) <->
  exists t, In t ts /\ finished t /\ st_id t = (c, k) /\ get_loss o (st_out t) = Ok p.
Proof.
  unfold history_at. rewrite in_flat_map. split.
  - intros (t & I & J). exists t. split; auto. destruct (is_pending t || negb (snd (st_id t) =? k)) eqn:B; [contradiction|].
    apply orb_false_iff in B. destruct B as [B1 B2]. apply negb_false_iff, Nat.eqb_eq in B2.
    destruct (get_loss o (st_out t)) as [q|]; [|contradiction]. destruct J as [[= <- <-]|[]].
    split; [unfold is_pending, finished in *; destruct (st_out t); [discriminate|discriminate|discriminate]|].
    split; auto. destruct (st_id t); cbn in *; subst; auto.
  - intros (t & I & FI & ID & G). exists t. split; auto. rewrite ID, G. cbn [fst snd]. rewrite Nat.eqb_refl. cbn [negb].
    replace (is_pending t) with false; [left; auto|]. unfold is_pending, finished in *. destruct (st_out t); auto; congruence.
Qed.

Lemma history_nonempty o lo hi ts tb k : observe o lo hi ts = Ok tb ->
  history_at o ts k <> [] <-> exists t, In t ts /\ finished t /\ snd (st_id t) = k.
Proof.
  intros OB. split.
  - intros NE. destruct (history_at o ts k) as [|[c p] l] eqn:E; [congruence|].
    destruct (proj1 (history_in o ts k c p)) as (t & I & FI & ID & _); [rewrite E; left; auto|].
    exists t. rewrite ID. auto.
  - intros (t & I & FI & K) E. destruct (proj1 (observe_ok o lo hi ts) (ex_intro _ tb OB) t I FI) as [_ [p P]].
    assert (J : In (fst (st_id t), p) (history_at o ts k)).
    { apply history_in. exists t. repeat split; auto. destruct (st_id t); cbn in *; subst; auto. }
    rewrite E in J. contradiction.
Qed.

Lemma active_lemma f eta s s' b0 b o ts tb : never_above lg -> legal f -> 2 <= eta ->
  make_bracket lg f eta s = Ok b0 -> make_bracket lg f eta s' = Ok b -> observe o (b_min b0) (b_max b0) ts = Ok tb ->
  exists cost used, bracket_cost b = Ok cost /\ resources_used (b_rungs b0) (t_rows tb) = Ok used /\ (0 <= used)%Q /\
  exists a, is_activate_inc b0 b (rung_histories o (b_min b0) (b_max b0) ts) (t_rows tb) = Ok a /\
  (a = true <-> (cost <= used)%Q /\ exists t, In t ts /\ finished t /\ snd (st_id t) = b_max b0).
Proof.
  clear default score dist argmin_strings argsort.
  intros NA LG E M0 M OB. destruct (cost_lemma f eta s' b NA LG E M) as (cost & C & _).
  destruct (bracket_maps f eta s b0 NA LG E M0) as (size & budget & LE & _ & _ & G).
  destruct (used_total (b_rungs b0) (t_rows tb) budget) as (used & U & UE).
  { intros x I N. apply G. eapply table_rungs; eauto. }
  exists cost, used. split; auto. split; auto. split.
  { rewrite UE. apply qsum_nonneg. intros q I. apply in_map_iff in I. destruct I as (x & <- & I).
    apply filter_In in I. destruct I as [I N]. apply negb_true_iff in N. apply Qlt_le_weak, G. eapply table_rungs; eauto. }
  unfold is_activate_inc. rewrite C, U. cbn [bind].
  pose proof (history_nonempty o _ _ ts tb (b_max b0) OB) as HN.
  destruct (Qle_bool cost used) eqn:Q.
  - unfold ngetitem. rewrite history_some by lia. cbn [bind]. eexists. split; [reflexivity|].
    rewrite <- HN. apply Qle_bool_iff in Q. destruct (history_at o ts (b_max b0)); cbn; intuition congruence.
  - exists false. split; auto. split; [discriminate|]. intros [L _]. apply Qle_bool_iff in L. congruence.
Qed.

Lemma scores_total rows inc ids : (forall c, In c ids -> exists x, In x rows /\ r_id x = c) ->
  exists l, scores default score rows inc ids = Ok l.
Proof.
  induction ids as [|c ids IH]; intros P; cbn [scores]; [eauto|].
  destruct (P c (or_introl eq_refl)) as (x & I & X). destruct (find_row c rows) as [y|] eqn:F.
  - destruct IH as [l L]; [intros; apply P; right; auto|]. rewrite L. cbn. eauto.
  - exfalso. eapply (proj1 (find_none_notin c rows) F); eauto.
Qed.

Lemma incumbent_total rows x : no_errors rows -> In x rows -> is_nan (r_perf x) = false ->
  exists h, incumbent default argmin_strings rows = Ok h.
Proof.
  intros N I X. unfold incumbent. destruct (find_exists argmin_strings 0 rows x N I X) as [y F]. rewrite F. cbn. eauto.
Qed.

Lemma dynamic_total eta o lo hi ts tb rung : 1 <= eta -> o_ignore_errors o = false -> observe o lo hi ts = Ok tb ->
  lo <= rung <= hi ->
  ((exists x, In x (t_rows tb) /\ is_nan (r_perf x) = false) \/
   (forall r, lo <= r <= hi -> length (history_at o ts r) < eta)) ->
  exists x, ratio_dynamic argsort default score argmin_strings eta lo (rung_histories o lo hi ts) (t_rows tb) rung = Ok x.
Proof.
  intros E IG OB R D. induction rung as [rung IH] using lt_wf_ind.
  assert (NE : no_errors (t_rows tb)) by (eapply table_no_errors; eauto).
  assert (EN : ratio_dynamic argsort default score argmin_strings eta lo (rung_histories o lo hi ts) (t_rows tb) rung =
    bind (ngetitem rung (rung_histories o lo hi ts)) (fun h =>
    if Nat.leb eta (length h) then
    bind (incumbent default argmin_strings (t_rows tb)) (fun inc =>
    bind (argsort_perfs argsort (map snd h)) (fun idx =>
    let top_n := Nat.max (length h / eta) eta in
    bind (scores default score (t_rows tb) inc (pick (map fst h) (firstn top_n idx))) (fun l =>
    let '(a, b) := weighted_sum l in
    Ok (share a (a + b)%Q, share b (a + b)%Q))))
    else if Nat.eqb rung lo then
    Ok (Num (qnat eta / (1 + qnat eta))%Q, Num (1 / (1 + qnat eta))%Q)
    else match rung with
       | O => Err KeyError
       | S r => ratio_dynamic argsort default score argmin_strings eta lo (rung_histories o lo hi ts) (t_rows tb) r
       end)) by (destruct rung; reflexivity).
  rewrite EN. clear EN. unfold ngetitem. rewrite history_some by auto. cbn [bind].
  destruct (Nat.leb_spec eta (length (history_at o ts rung))) as [LE|LT].
  - destruct D as [(x & I & X)|D]; [|specialize (D rung R); lia].
    destruct (incumbent_total _ x NE I X) as [inc J]. rewrite J. cbn [bind].
    assert (HE : existsb is_err (map snd (history_at o ts rung)) = false).
    { destruct (existsb is_err _) eqn:Y; auto. apply existsb_exists in Y. destruct Y as (p & P & Q).
      apply in_map_iff in P. destruct P as ([c p'] & <- & P). apply history_in in P. destruct P as (t & _ & _ & _ & G).
      cbn [snd] in Q. rewrite (get_loss_no_err _ _ _ IG G) in Q. discriminate. }
    unfold argsort_perfs. rewrite HE.
    assert (SC : forall idx, exists l, scores default score (t_rows tb) inc (pick (map fst (history_at o ts rung)) idx) = Ok l).
    { intros idx. apply scores_total. intros c C. apply pick_in, in_map_iff in C. destruct C as ([c' p] & <- & C).
      apply history_in in C. destruct C as (t & T & _ & ID & _). destruct (observe_spec _ _ _ _ _ OB) as (_ & A & _).
      destruct (A t T) as (y & Y & YE). exists y. rewrite ID in YE. auto. }
    destruct (forallb is_err _); cbn [bind];
    match goal with |- context [firstn ?n ?idx] => destruct (SC (firstn n idx)) as [l L]; rewrite L end; cbn [bind];
    destruct (weighted_sum l); eauto.
  - destruct (Nat.eqb_spec rung lo); [eauto|]. destruct rung as [|r]; [lia|]. apply IH; lia.
Qed.

Lemma args_total f eta s s' b0 b o ts tb t st how rung : never_above lg -> legal f -> 2 <= eta ->
  make_bracket lg f eta s = Ok b0 -> make_bracket lg f eta s' = Ok b -> observe o (b_min b0) (b_max b0) ts = Ok tb ->
  o_ignore_errors o = false -> t <> OtherType -> st <> OtherStyle ->
  (t = Linear -> rung <= b_max b0 - b_min b0) ->
  (st = Decay -> f_int f = true \/
     forall u, resources_used (b_rungs b0) (t_rows tb) = Ok u -> (u < 1024 * (qnat eta * f_upper f))%Q) ->
  (st = Dynamic -> (exists x, In x (t_rows tb) /\ is_nan (r_perf x) = false) \/
     forall r, b_min b0 <= r <= b_max b0 -> length (history_at o ts r) < eta) ->
  (how = Hypersphere -> forall x, In x (t_rows tb) -> exists y, In y (t_rows tb) /\ (0 < dist (r_hps x) (r_hps y))%Q) ->
  exists a, pb_args argsort default score dist argmin_strings o t st how f eta b0 b ts rung = Ok a.
Proof.
  intros NA LG E M0 M OB IG T ST LI DE DY HS.
  destruct (bracket_maps f eta s b0 NA LG E M0) as (size & budget & LE & _ & LN & G).
  destruct (active_lemma f eta s s' b0 b o ts tb NA LG E M0 M OB) as (cost & used & C & U & U0 & act & A & AI).
  unfold pb_args. rewrite OB. cbn [bind]. unfold set_sampling_weights_and_inc.
  assert (CA : exists w, calc_sampling_args argsort default score argmin_strings t st f eta b0
                 (rung_histories o (b_min b0) (b_max b0) ts) (t_rows tb) rung = Ok w).
  { unfold calc_sampling_args.
    assert (RW : exists w, raw_prior_weight t eta (length (b_rungs b0)) rung = Ok w).
    { destruct t; cbn [raw_prior_weight]; eauto; [|congruence]. unfold linspace. rewrite nth_error_map.
      destruct (nth_error (seq 0 (length (b_rungs b0))) rung) eqn:N; cbn; [eauto|]. apply nth_error_None in N.
      rewrite seq_length, LN in N. specialize (LI eq_refl). lia. }
    destruct RW as [w W]. rewrite W. cbn [bind].
    assert (PR : exists x, prior_to_incumbent_ratio argsort default score argmin_strings st f eta b0
                   (rung_histories o (b_min b0) (b_max b0) ts) (t_rows tb) = Ok x).
    { destruct st; cbn [prior_to_incumbent_ratio]; [destruct (ratio_constant eta); eauto| | |congruence].
      - rewrite U. cbn [bind]. unfold ratio_decay, prior_weight_for_decay.
        assert (UP : (0 < qnat eta * f_upper f)%Q).
        { destruct LG as (P1 & P2 & _). assert (1 <= qnat eta)%Q by (apply (qnat_le 1 eta); lia).
          assert (0 < f_upper f)%Q by (eapply Qlt_trans; eauto).
          apply (Qlt_le_trans _ (1 * f_upper f)); [rewrite Qmult_1_l; auto|]. apply Qmult_le_compat_r; auto. apply Qlt_le_weak; auto. }
        destruct (Qeq_bool (qnat eta * f_upper f) 0) eqn:Z; [apply Qeq_bool_eq in Z; rewrite Z in UP; exfalso; revert UP; apply Qlt_irrefl|].
        destruct (f_int f); cbn [negb andb]; [cbn; eauto|].
        destruct (DE eq_refl) as [X|X]; [discriminate|]. specialize (X used U).
        destruct (Z.leb_spec 1024 (Qfloor (used / (qnat eta * f_upper f)))) as [L|L]; [|cbn; eauto].
        exfalso. assert (Y : (inject_Z 1024 <= used / (qnat eta * f_upper f))%Q).
        { eapply Qle_trans; [|apply Qfloor_le]. rewrite <- Zle_Qle. exact L. }
        apply (Qlt_not_le _ _ X). apply (Qmult_le_compat_r _ _ (qnat eta * f_upper f)) in Y; [|apply Qlt_le_weak; auto].
        eapply Qle_trans; [exact Y|]. rewrite Qmult_comm, Qmult_div_r; [apply Qle_refl|].
        intros ZZ. rewrite ZZ in UP. revert UP. apply Qlt_irrefl.
      - apply dynamic_total with (hi := b_max b0); auto; lia. }
    destruct PR as [[rp ri] P]. rewrite P. cbn [bind]. eauto. }
  destruct CA as [w W]. rewrite W. cbn [bind]. rewrite A. cbn [bind]. destruct act; cbn [negb]; [|eauto].
  destruct (proj1 AI eq_refl) as [CU _].
  assert (NE : no_errors (t_rows tb)) by (eapply table_no_errors; eauto).
  assert (X : exists x, In x (t_rows tb) /\ is_nan (r_perf x) = false).
  { destruct (used_total (b_rungs b0) (t_rows tb) budget) as (u & U' & UE).
    { intros x I N. apply G. eapply table_rungs; eauto. }
    rewrite U in U'. injection U' as <-.
    destruct (filter (fun x => negb (is_nan (r_perf x))) (t_rows tb)) as [|x l] eqn:FI.
    - exfalso. cbn in UE. rewrite UE in CU. revert CU. apply Qlt_not_le. eapply cost_positive; eauto.
    - exists x. assert (I : In x (filter (fun x => negb (is_nan (r_perf x))) (t_rows tb))) by (rewrite FI; left; auto).
      apply filter_In in I. destruct I as [I N]. apply negb_true_iff in N. auto. }
  destruct X as (x & I & N). unfold incumbent.
  destruct (find_exists argmin_strings 0 (t_rows tb) x NE I N) as [y F]. rewrite F. cbn [bind].
  pose proof (find_best argmin_strings _ _ _ NE F) as [Y _].
  destruct how; eauto. unfold nearest_distance.
  destruct (HS eq_refl y Y) as (z & Z & D).
  destruct (filter _ (map (fun x0 => dist (r_hps y) (r_hps x0)) (t_rows tb))) as [|d l] eqn:FI; [|cbn; eauto].
  exfalso. assert (J : In (dist (r_hps y) (r_hps z)) []).
  { rewrite <- FI. apply filter_In. split; [apply in_map with (f := fun x0 => dist (r_hps y) (r_hps x0)); auto|].
    apply negb_true_iff. destruct (Qle_bool _ 0) eqn:QQ; auto. apply Qle_bool_iff in QQ. exfalso. revert QQ. apply Qlt_not_le. auto. }
  contradiction.
Qed.
End Total.
End Cost.
