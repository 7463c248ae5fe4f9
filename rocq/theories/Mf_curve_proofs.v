(** Learning curves, and the last evaluation of each configuration in a tensor. *)
From Verif Require Export Mf_reduce_proofs.
Local Notation length := List.length.
Open Scope Z_scope.

(** ** Entries of the table of learning curves *)
Lemma curves_in l t : learning_curves l = Ok t -> forall k x, In (k, x) t <->
  exists r, In (k, r) l /\ is_na (nth 1 r VNone) = false /\ as_num (nth 1 r VNone) = Some x.
Proof.
  revert t; induction l as [|[k0 r0] l IH]; intros t; cbn [learning_curves].
  - intros [= <-] k x. split; [intros [] | intros [r [[] _]]].
  - destruct (learning_curves l) as [t'|]; cbn [bind]; [|discriminate].
    specialize (IH t' eq_refl). unfold perf_of. cbn [fst snd].
    destruct (is_na (nth 1 r0 VNone)) eqn:NA.
    + intros [= <-] k x. rewrite IH. split; intros [r (A & B & C)]; exists r; cbn [In]; auto.
      destruct A as [[= <- <-]|A]; [congruence | auto].
    + destruct (as_num (nth 1 r0 VNone)) as [y|] eqn:AN; [|discriminate].
      intros [= <-] k x. cbn [In]. rewrite IH. split.
      * intros [[= <- <-] | [r (A & B & C)]]; [exists r0 | exists r]; auto.
      * intros [r ([[= <- <-]|A] & B & C)]; [left; congruence | right; eauto].
Qed.

Lemma curves_total l : (forall k r, In (k, r) l -> is_na (nth 1 r VNone) = true \/ as_num (nth 1 r VNone) <> None) ->
  exists t, learning_curves l = Ok t.
Proof.
  induction l as [|[k0 r0] l IH]; intros H; cbn [learning_curves]; [eauto|].
  destruct IH as [t E]; [intros; eapply H; right; eauto|]. rewrite E. cbn [bind]. unfold perf_of. cbn [fst snd].
  destruct (is_na (nth 1 r0 VNone)) eqn:NA; [eauto|].
  destruct (as_num (nth 1 r0 VNone)) eqn:AN; [eauto|].
  destruct (H k0 r0 (or_introl eq_refl)); congruence.
Qed.

Lemma as_num_not_nan v x : as_num v = Some x -> is_na v = false <-> x <> FNaN.
Proof.
  assert (Z : forall z, fl_of_Z z <> FNaN) by discriminate.
  destruct v as [|[]|z|f|s|l|l|d|n]; cbn; try discriminate; intros [= <-].
  - split; [discriminate | reflexivity].
  - split; [discriminate | reflexivity].
  - split; [discriminate | reflexivity].
  - destruct f; cbn; split; congruence.
Qed.

Lemma cell_one f k r : wf_frame f -> row_at f k = Some r -> nth_error r 1 = Some (nth 1 r VNone).
Proof.
  intros W R. apply nth_error_nth'. apply (find_in_in _ _ _ (wf_labels f W)) in R.
  rewrite (wf_rows f W _ _ R). pose proof (wf_width f W). lia.
Qed.
Lemma curves_recorded f t i b x : wf_frame f -> learning_curves (f_rows f) = Ok t ->
  In ((i, b), x) t <-> recorded f i b x.
Proof.
  intros W E. rewrite (curves_in _ _ E). unfold recorded. split.
  - intros [r (I & NA & AN)]. apply (find_in_in _ _ _ (wf_labels f W)) in I.
    exists r, (nth 1 r VNone). split; [exact I|]. split; [apply (cell_one f _ _ W I)|]. split; [exact AN|].
    apply (as_num_not_nan _ _ AN). exact NA.
  - intros [r [v (R & N & AN & NN)]]. rewrite (cell_one f _ _ W R) in N. injection N as <-.
    exists r. split; [apply (find_in_in _ _ _ (wf_labels f W)); exact R|]. split; [|exact AN].
    apply (as_num_not_nan _ _ AN). exact NN.
Qed.
Lemma numeric_total f : wf_frame f -> numeric f -> exists t, learning_curves (f_rows f) = Ok t.
Proof.
  intros W N. apply curves_total. intros k r I. apply (find_in_in _ _ _ (wf_labels f W)) in I.
  apply (N k r _ I). apply (cell_one f _ _ W I).
Qed.

(** ** Order of floats without NaN *)
Lemma fl_ltb_irrefl x : fl_ltb x x = false.
Proof. destruct x; cbn; try reflexivity. apply Z.ltb_irrefl. Qed.
Lemma fl_nlt_trans x y z : y <> FNaN -> fl_ltb x y = false -> fl_ltb y z = false -> fl_ltb x z = false.
Proof.
  intros N. destruct x as [| | |a], y as [| | |b], z as [| | |c]; cbn; try congruence; try reflexivity;
    try (destruct (_ <? _); congruence).
  rewrite !Z.ltb_ge. lia.
Qed.
Lemma fl_lt_nlt x y z : fl_ltb x y = true -> fl_ltb z y = false -> fl_ltb z x = false.
Proof.
  destruct x as [| | |a], y as [| | |b], z as [| | |c]; cbn; try congruence; try reflexivity.
  rewrite Z.ltb_lt, !Z.ltb_ge. lia.
Qed.
Lemma fl_lt_asym x y : fl_ltb x y = true -> fl_ltb y x = false.
Proof.
  destruct x as [| | |a], y as [| | |b]; cbn; try congruence; try reflexivity. rewrite Z.ltb_lt, Z.ltb_ge. lia.
Qed.

(** [better m x y]: x is strictly better than y *)
Lemma better_irrefl m x : better m x x = false. Proof. destruct m; apply fl_ltb_irrefl. Qed.
Lemma nbetter_trans m x y z : y <> FNaN -> better m x y = false -> better m y z = false -> better m x z = false.
Proof. destruct m; cbn; intros N A B; [apply (fl_nlt_trans z y x) | apply (fl_nlt_trans x y z)]; auto. Qed.
Lemma better_asym m x y : better m x y = true -> better m y x = false.
Proof. destruct m; cbn; apply fl_lt_asym. Qed.
Lemma fl_best_cases m x y : (fl_best m x y = x \/ fl_best m x y = y) /\
  (y <> FNaN -> better m y (fl_best m x y) = false) /\ better m x (fl_best m x y) = false.
Proof.
  destruct m; cbn.
  - destruct (fl_ltb x y) eqn:E; (split; [auto|]).
    + split; [intros _; apply fl_ltb_irrefl | apply fl_lt_asym; exact E].
    + split; [auto | apply fl_ltb_irrefl].
  - destruct (fl_ltb y x) eqn:E; (split; [auto|]).
    + split; [intros _; apply fl_ltb_irrefl | apply fl_lt_asym; exact E].
    + split; [auto | apply fl_ltb_irrefl].
Qed.

Lemma fold_best_spec m l x : x <> FNaN -> (forall y, In y l -> y <> FNaN) ->
  let v := fold_left (fl_best m) l x in
  In v (x :: l) /\ forall y, In y (x :: l) -> better m y v = false.
Proof.
  cbn zeta. revert x; induction l as [|z l IH]; intros x NX NL; cbn [fold_left].
  - split; [left; auto|]. intros y [<-|[]]. apply better_irrefl.
  - destruct (fl_best_cases m x z) as (C & A & B).
    assert (NZ : z <> FNaN) by (apply NL; left; auto).
    assert (NB : fl_best m x z <> FNaN) by (destruct C as [->| ->]; auto).
    destruct (IH (fl_best m x z) NB) as [I H]; [intros; apply NL; right; auto|]. split.
    + destruct I as [I|I]; [|right; right; exact I]. rewrite <- I. destruct C as [-> | ->]; [left|right; left]; auto.
    + intros y [<-|[<-|J]].
      * apply (nbetter_trans m x (fl_best m x z)); auto. apply H. left. reflexivity.
      * apply (nbetter_trans m z (fl_best m x z)); auto. apply H. left. reflexivity.
      * apply H. right. exact J.
Qed.

Lemma row_best_spec m t i v : (forall k x, In (k, x) t -> x <> FNaN) -> row_best m t i = Some v ->
  (exists b, In ((i, b), v) t) /\ forall b x, In ((i, b), x) t -> better m x v = false.
Proof.
  intros NN. unfold row_best.
  assert (M : forall x, In x (map snd (filter (fun e : key * fl => fst (fst e) =? i) t)) <-> exists b, In ((i, b), x) t).
  { intros x. rewrite in_map_iff. split.
    - intros [[[i' b] y] [E I]]. apply filter_In in I. destruct I as [I X]. cbn in *. apply Z.eqb_eq in X. subst. eauto.
    - intros [b I]. exists ((i, b), x). split; [reflexivity|]. apply filter_In. split; [exact I | apply Z.eqb_refl]. }
  destruct (map snd _) as [|x l]; [discriminate|]. intros [= <-].
  destruct (fold_best_spec m l x) as [A B].
  - destruct (proj1 (M x) (or_introl eq_refl)) as [b I]. eauto.
  - intros y I. destruct (proj1 (M y) (or_intror I)) as [b J]. eauto.
  - split; [apply M; exact A|]. intros b y I. apply B. apply M. eauto.
Qed.
Lemma row_best_some m t i b x : In ((i, b), x) t -> exists v, row_best m t i = Some v.
Proof.
  intros I. unfold row_best. destruct (map snd _) as [|y l] eqn:E; [|eauto].
  assert (J : In x (map snd (filter (fun e : key * fl => fst (fst e) =? i) t))).
  { apply in_map_iff. exists ((i, b), x). split; [reflexivity|]. apply filter_In. split; [exact I | apply Z.eqb_refl]. }
  rewrite E in J. destruct J.
Qed.

Lemma bests_in m t i v : In (i, v) (bests m t) <-> row_best m t i = Some v.
Proof.
  unfold bests. rewrite in_flat_map. split.
  - intros [j [_ I]]. destruct (row_best m t j) eqn:E; [destruct I as [I|[]] | destruct I]. injection I as -> ->. exact E.
  - intros E. exists i. rewrite E. split; [|left; reflexivity]. unfold curve_ids. rewrite sort_ids_in.
    unfold row_best in E. destruct (filter (fun e : key * fl => fst (fst e) =? i) t) as [|e l] eqn:F; [discriminate|].
    assert (I : In e (filter (fun e : key * fl => fst (fst e) =? i) t)) by (rewrite F; left; reflexivity).
    apply filter_In in I. destruct I as [I X]. apply Z.eqb_eq in X. apply in_map_iff. exists e. auto.
Qed.
Lemma bests_sorted m t : StronglySorted Z.lt (map fst (bests m t)).
Proof.
  unfold bests. pose proof (sort_ids_sorted (map (fun e : key * fl => fst (fst e)) t)) as SS. fold (curve_ids t) in SS.
  induction SS as [|i l S1 IH F]; cbn [flat_map map]; [constructor|].
  destruct (row_best m t i); cbn [app map fst]; [|exact IH]. constructor; [exact IH|].
  rewrite Forall_forall in *. intros j I. apply in_map_iff in I. destruct I as [[j' v] [E I]]. cbn in E. subst j'.
  apply in_flat_map in I. destruct I as [j' [J I]]. destruct (row_best m t j'); [destruct I as [I|[]] | destruct I].
  injection I as -> _. auto.
Qed.

Lemma idx_best_spec m l e : (forall x, In x (e :: l) -> snd x <> FNaN) -> StronglySorted Z.lt (map fst (e :: l)) ->
  In (idx_best m e l) (e :: l) /\
  (forall x, In x (e :: l) -> better m (snd x) (snd (idx_best m e l)) = false) /\
  (forall x, In x (e :: l) -> fst x < fst (idx_best m e l) -> better m (snd (idx_best m e l)) (snd x) = true).
Proof.
  revert e; induction l as [|y l IH]; intros e NN SS; cbn [idx_best].
  - split; [left; auto|]. split; intros x [<-|[]]; [apply better_irrefl | lia].
  - cbn [map] in SS. inversion SS as [|a b S1 F]; subst. inversion S1 as [|a b S2 F2]; subst.
    assert (NE : snd e <> FNaN) by (apply NN; left; auto).
    assert (NY : snd y <> FNaN) by (apply NN; right; left; auto).
    inversion F as [|a b EY F1]; subst.
    destruct (better m (snd y) (snd e)) eqn:B.
    + destruct (IH y) as (I1 & I2 & I3); [intros; apply NN; right; auto | exact S1|].
      set (r := idx_best m y l) in *.
      assert (Be : better m (snd r) (snd e) = true).
      { destruct (better m (snd r) (snd e)) eqn:X; [reflexivity|].
        assert (better m (snd y) (snd e) = false); [|congruence].
        apply (nbetter_trans m _ (snd r)); auto. apply NN. right. exact I1. apply I2. left. reflexivity. }
      split; [right; exact I1|]. split.
      * intros x [<-|I]; [|auto]. apply better_asym. exact Be.
      * intros x [<-|I] L; [exact Be | auto].
    + destruct (IH e) as (I1 & I2 & I3).
      * intros x [<-|I]; [exact NE | apply NN; right; right; exact I].
      * cbn [map]. constructor; [exact S2 | exact F1].
      * set (r := idx_best m e l) in *. 
        assert (Nr : snd r <> FNaN). { destruct I1 as [<-|I1]; [exact NE|]. apply NN. right. right. exact I1. }
        split; [destruct I1 as [I1|I1]; [left|right; right]; exact I1|]. split.
        -- intros x [<-|[<-|I]]; [apply I2; left; auto | | apply I2; right; exact I].
           apply (nbetter_trans m _ (snd e)); auto. apply I2. left. reflexivity.
        -- intros x [<-|[<-|I]] L; [apply I3; [left; auto | exact L] | | apply I3; [right; exact I | exact L]].
           destruct (better m (snd r) (snd y)) eqn:X; [reflexivity|].
           assert (fst e < fst r) by lia.
           assert (better m (snd r) (snd e) = true) by (apply I3; [left; auto | lia]).
           assert (better m (snd r) (snd e) = false) by (apply (nbetter_trans m _ (snd y)); auto). congruence.
Qed.

Lemma bests_not_nan m t : (forall k x, In (k, x) t -> x <> FNaN) -> forall e, In e (bests m t) -> snd e <> FNaN.
Proof.
  intros NN [i v] I. apply bests_in in I. destruct (row_best_spec m t i v NN I) as [[b J] _]. cbn. eauto.
Qed.

Lemma best_id_spec f m i : wf_frame f -> get_best_learning_curve_id f m = Ok i ->
  exists b x, recorded f i b x /\
    forall i' b' x', recorded f i' b' x' -> better m x' x = false /\ (i' < i -> better m x x' = true).
Proof.
  intros W. unfold get_best_learning_curve_id.
  destruct (learning_curves (f_rows f)) as [t|] eqn:E; cbn [bind]; [|discriminate].
  assert (NN : forall k x, In (k, x) t -> x <> FNaN).
  { intros [i0 b0] x I. apply (curves_recorded f t _ _ _ W E) in I. destruct I as [r [v (_ & _ & _ & N)]]. exact N. }
  destruct (bests m t) as [|e l] eqn:B; [discriminate|]. intros [= <-].
  pose proof (bests_sorted m t) as SS. pose proof (bests_not_nan m t NN) as BN. rewrite B in SS, BN.
  destruct (idx_best_spec m l e BN SS) as (I1 & I2 & I3). set (r := idx_best m e l) in *.
  rewrite <- B in I1. destruct r as [i x]. cbn [fst snd] in *.
  apply bests_in in I1. destruct (row_best_spec m t i x NN I1) as [[b J] K].
  exists b, x. split; [apply (curves_recorded f t _ _ _ W E); exact J|].
  intros i' b' x' R'. apply (curves_recorded f t _ _ _ W E) in R'.
  destruct (row_best_some m t i' b' x' R') as [v' V'].
  destruct (row_best_spec m t i' v' NN V') as [[b2 J2] K2].
  assert (IN : In (i', v') (e :: l)) by (rewrite <- B; apply bests_in; exact V').
  specialize (K2 _ _ R'). split.
  - apply (nbetter_trans m _ v'); [eauto | exact K2 |]. apply (I2 _ IN).
  - intros L. specialize (I3 _ IN L). cbn in I3. destruct (better m x x') eqn:X; [reflexivity|].
    assert (better m x v' = false); [|congruence]. apply (nbetter_trans m _ x'); eauto.
Qed.

Lemma best_seen_spec f m x i b y : wf_frame f -> get_best_seen_performance f m = Ok x -> recorded f i b y ->
  (exists i' b', recorded f i' b' x) /\ better m y x = false.
Proof.
  intros W. unfold get_best_seen_performance.
  destruct (learning_curves (f_rows f)) as [t|] eqn:E; cbn [bind]; [|discriminate].
  assert (NN : forall k x, In (k, x) t -> x <> FNaN).
  { intros [i0 b0] z I. apply (curves_recorded f t _ _ _ W E) in I. destruct I as [r [v (_ & _ & _ & N)]]. exact N. }
  intros H R. apply (curves_recorded f t _ _ _ W E) in R.
  destruct (row_best_some m t i b y R) as [v' V']. destruct (row_best_spec m t i v' NN V') as [[b2 J2] K2].
  destruct (bests m t) as [|e l] eqn:B.
  { apply bests_in in V'. rewrite B in V'. destruct V'. }
  injection H as <-.
  pose proof (bests_sorted m t) as SS. pose proof (bests_not_nan m t NN) as BN. rewrite B in SS, BN.
  destruct (idx_best_spec m l e BN SS) as (I1 & I2 & _). set (r := idx_best m e l) in *. split.
  - rewrite <- B in I1. destruct r as [i1 x1]. apply bests_in in I1.
    destruct (row_best_spec m t i1 x1 NN I1) as [[b3 J3] _]. exists i1, b3.
    apply (curves_recorded f t _ _ _ W E). exact J3.
  - apply (nbetter_trans m _ v'); [eauto | apply (K2 _ _ R)|].
    assert (IN : In (i, v') (e :: l)) by (rewrite <- B; apply bests_in; exact V').
    apply (I2 _ IN).
Qed.

Lemma best_id_total f m i b x : wf_frame f -> numeric f -> recorded f i b x ->
  exists j, get_best_learning_curve_id f m = Ok j.
Proof.
  intros W N R. destruct (numeric_total f W N) as [t E]. unfold get_best_learning_curve_id. rewrite E. cbn [bind].
  apply (curves_recorded f t _ _ _ W E) in R. destruct (row_best_some m t i b x R) as [v V].
  apply bests_in in V. destruct (bests m t); [destruct V | eauto].
Qed.

(** ** extract_learning_curve *)
Lemma curve_at_recorded f t i b : wf_frame f -> learning_curves (f_rows f) = Ok t ->
  (exists x, recorded f i b x /\ curve_at t (i, b) = x) \/ ((forall x, ~ recorded f i b x) /\ curve_at t (i, b) = FNaN).
Proof.
  intros W E. unfold curve_at. destruct (find _ t) as [[k x]|] eqn:F.
  - apply find_some in F. cbn [fst] in F. destruct F as [I K]. apply key_eqb_eq in K. subst k. left. exists x.
    split; [|reflexivity]. apply (curves_recorded f t _ _ _ W E). exact I.
  - right. split; [|reflexivity]. intros x R. apply (curves_recorded f t _ _ _ W E) in R.
    apply (find_none _ _ F) in R. cbn in R. rewrite key_eqb_refl in R. discriminate.
Qed.

Lemma curve_spec f i b l : wf_frame f -> 1 <= b -> extract_learning_curve f i (Some b) = Ok l ->
  exists budgets, StronglySorted Z.lt budgets /\ Forall2 (fun b' x =>
      b' < b /\ (recorded f i b' x \/ x = FNaN /\ forall y, ~ recorded f i b' y)) budgets l /\
    (forall b' x, b' < b -> recorded f i b' x -> In b' budgets).
Proof.
  intros W B. unfold extract_learning_curve. cbn [bind].
  destruct (Z.eqb_spec b 0); [lia|].
  destruct (learning_curves (f_rows f)) as [t|] eqn:E; cbn [bind]; [|discriminate].
  destruct (existsb _ t); [|discriminate]. intros [= <-].
  set (bs := filter (fun b' => b' <=? Z.max 0 (b - 1)) (curve_budgets t)).
  exists bs. split; [apply filter_sorted, sort_ids_sorted|]. split.
  - assert (H : forall b', In b' bs -> b' < b).
    { intros b' I. apply filter_In in I. destruct I as [_ L]. apply Z.leb_le in L. lia. }
    clearbody bs. induction bs as [|b' bs IH]; cbn [map]; constructor.
    + split; [apply H; left; auto|]. destruct (curve_at_recorded f t i b' W E) as [[x [R <-]]|[N ->]]; auto.
    + apply IH. intros; apply H; right; auto.
  - intros b' x L R. apply filter_In. split; [|apply Z.leb_le; lia]. unfold curve_budgets. rewrite sort_ids_in.
    apply in_map_iff. exists ((i, b'), x). split; [reflexivity|]. apply (curves_recorded f t _ _ _ W E). exact R.
Qed.

(** ** The tensor *)
Section Keep.
Context {X : Type}.
Variable argsort_budget : list Z -> list nat.
Implicit Types (x l : list (@trow X)).

Definition tid (r : @trow X) : Z := fst (fst r).
Definition tbudget (r : @trow X) : Z := snd (fst r).

Lemma take_perm x idx : Permutation idx (seq 0 (length x)) -> Permutation (take x idx) x.
Proof.
  intros P. unfold take. rewrite (Permutation_flat_map _ P). clear P idx.
  enough (H : forall pre, flat_map (fun i => match nth_error (pre ++ x) i with Some r => [r] | None => [] end)
                       (seq (length pre) (length x)) = x).
  { specialize (H []). cbn [app length] in H. rewrite H. reflexivity. }
  induction x as [|r x IH]; intros pre; cbn [length seq flat_map]; [reflexivity|].
  rewrite nth_error_app2 by lia. rewrite Nat.sub_diag. cbn [nth_error app]. f_equal.
  specialize (IH (pre ++ [r])). rewrite app_length in IH. cbn [length] in IH.
  rewrite Nat.add_1_r, <- app_assoc in IH. exact IH.
Qed.

Lemma take_sorted x idx : (forall i, In i idx -> (i < length x)%nat) ->
  StronglySorted (fun i j => nth i (map tbudget x) 0 <= nth j (map tbudget x) 0) idx ->
  StronglySorted (fun r s => tbudget r <= tbudget s) (take x idx).
Proof.
  intros B SS. unfold take. induction SS as [|i idx S1 IH F]; cbn [flat_map]; [constructor|].
  assert (Bi : (i < length x)%nat) by (apply B; left; auto).
  destruct (nth_error x i) as [r|] eqn:E; [|apply nth_error_None in E; lia].
  cbn [app]. constructor; [apply IH; intros; apply B; right; auto|].
  rewrite Forall_forall in *. intros s I. apply in_flat_map in I. destruct I as [j [J I]].
  destruct (nth_error x j) as [s'|] eqn:Ej; [|destruct I]. destruct I as [->|[]].
  specialize (F j J). 
  rewrite (nth_error_nth (map tbudget x) i 0 (map_nth_error tbudget i x E)) in F.
  rewrite (nth_error_nth (map tbudget x) j 0 (map_nth_error tbudget j x Ej)) in F. exact F.
Qed.

Lemma insert_trow_perm r l : Permutation (insert_trow r l) (r :: l).
Proof.
  induction l as [|r' l IH]; cbn [insert_trow]; [reflexivity|].
  destruct (Z.ltb _ _); [|reflexivity]. rewrite IH. apply perm_swap.
Qed.
Lemma sort_by_id_perm l : Permutation (sort_by_id l) l.
Proof.
  induction l as [|r l IH]; cbn [sort_by_id fold_right]; [reflexivity|].
  rewrite insert_trow_perm. constructor. exact IH.
Qed.

(** by id, and within an id by budget *)
Definition tle (r s : @trow X) : Prop := tid r < tid s \/ tid r = tid s /\ tbudget r <= tbudget s.
Lemma tle_trans a b c : tle a b -> tle b c -> tle a c.
Proof. unfold tle. lia. Qed.
Lemma insert_trow_sorted r l : StronglySorted tle l -> (forall s, In s l -> tbudget r <= tbudget s) ->
  StronglySorted tle (insert_trow r l).
Proof.
  induction l as [|r' l IH]; intros SS B; cbn [insert_trow]; [constructor; constructor|].
  inversion SS as [|a b S1 F]; subst. rewrite Forall_forall in F.
  destruct (Z.ltb_spec (fst (fst r')) (fst (fst r))) as [L|L].
  - constructor; [apply IH; auto; intros; apply B; right; auto|]. rewrite Forall_forall. intros s I.
    apply (Permutation_in _ (insert_trow_perm r l)) in I. destruct I as [<-|I]; [left; exact L | auto].
  - assert (K : tle r r').
    { unfold tle, tid. destruct (Z.eq_dec (fst (fst r)) (fst (fst r'))); [right; split; [auto | apply B; left; auto] | lia]. }
    constructor; [exact SS|]. rewrite Forall_forall. intros s [<-|I]; [exact K|].
    apply tle_trans with r'; auto.
Qed.
Lemma sort_by_id_sorted l : StronglySorted (fun r s => tbudget r <= tbudget s) l -> StronglySorted tle (sort_by_id l).
Proof.
  induction 1 as [|r l S1 IH F]; cbn [sort_by_id fold_right]; [constructor|].
  apply insert_trow_sorted; [exact IH|]. rewrite Forall_forall in F. intros s I. apply F.
  apply (Permutation_in _ (sort_by_id_perm l)). exact I.
Qed.

(** the last row of each run of equal ids *)
Fixpoint lasts (l : list (@trow X)) : list (@trow X) :=
  match l with
  | [] => []
  | r :: l' => match l' with
               | [] => [r]
               | s :: _ => if Z.eqb (tid r) (tid s) then lasts l' else r :: lasts l'
               end
  end.

Lemma lasts_two r s l : lasts (r :: s :: l) = if Z.eqb (tid r) (tid s) then lasts (s :: l) else r :: lasts (s :: l).
Proof. reflexivity. Qed.

Lemma last_positions_take pre n l i m :
  length pre = n -> (1 <= m)%nat ->
  forall r mid, length mid = (m - 1)%nat -> i = tid r ->
  take (pre ++ mid ++ r :: l) (last_positions n (runs i m (map tid l))) = lasts (r :: l).
Proof.
  revert pre n i m. induction l as [|s l IH]; intros pre n i m LP M r mid LM E; subst i.
  - cbn [map runs last_positions take flat_map lasts]. rewrite app_assoc.
    rewrite nth_error_app2 by (rewrite app_length; lia).
    replace (n + m - 1 - length (pre ++ mid))%nat with 0%nat by (rewrite app_length; lia). reflexivity.
  - rewrite lasts_two. cbn [map runs]. destruct (Z.eqb_spec (tid r) (tid s)) as [Q|Q].
    + specialize (IH pre n (tid r) (S m) LP ltac:(lia) s (mid ++ [r])).
      rewrite app_length in IH. cbn [length] in IH. rewrite <- (IH ltac:(lia) Q).
      rewrite <- !app_assoc. reflexivity.
    + cbn [last_positions]. unfold take. cbn [flat_map]. fold (take (pre ++ mid ++ r :: s :: l) (last_positions (n + m) (runs (tid s) 1 (map tid l)))).
      rewrite (app_assoc pre mid). rewrite nth_error_app2 by (rewrite app_length; lia).
      replace (n + m - 1 - length (pre ++ mid))%nat with 0%nat by (rewrite app_length; lia).
      cbn [nth_error app]. f_equal.
      specialize (IH (pre ++ mid ++ [r]) (n + m)%nat (tid s) 1%nat).
      rewrite <- (IH ltac:(rewrite !app_length; cbn [length]; lia) ltac:(lia) s [] eq_refl eq_refl).
      f_equal. rewrite <- !app_assoc. reflexivity.
Qed.

Lemma keep_lasts x : keep_highest_budget argsort_budget x =
  lasts (sort_by_id (take x (argsort_budget (map (fun r => snd (fst r)) x)))).
Proof.
  unfold keep_highest_budget. set (s := sort_by_id _). destruct s as [|r l]; [reflexivity|].
  cbn [map counts]. apply (last_positions_take [] 0 l _ 1 eq_refl (le_n _) r [] eq_refl eq_refl).
Qed.

Lemma lasts_in r l : In r (lasts l) -> In r l.
Proof.
  induction l as [|s l IH]; cbn [lasts]; [auto|]. destruct l as [|s' l'].
  - auto.
  - destruct (Z.eqb _ _); [right; auto|]. intros [<-|I]; [left; auto | right; auto].
Qed.
Lemma lasts_spec l : StronglySorted tle l ->
  StronglySorted Z.lt (map tid (lasts l)) /\
  (forall r, In r l -> exists s, In s (lasts l) /\ tid s = tid r /\ tbudget r <= tbudget s).
Proof.
  induction l as [|r l IH]; intros SS; cbn [lasts].
  - split; [constructor | intros r []].
  - inversion SS as [|a b S1 F]; subst. destruct (IH S1) as [A B]. rewrite Forall_forall in F.
    destruct l as [|s l'].
    + split; [constructor; constructor|]. intros r' [<-|[]]. exists r. split; [left; auto | split; [auto | lia]].
    + destruct (Z.eqb_spec (tid r) (tid s)) as [Q|Q].
      * split; [exact A|]. intros r' [<-|I]; [|auto]. destruct (B s (or_introl eq_refl)) as [t (I & T & U)].
        exists t. split; [exact I|]. split; [congruence|]. specialize (F s (or_introl eq_refl)). unfold tle in F. lia.
      * split.
        -- cbn [map]. constructor; [exact A|]. rewrite Forall_forall. intros j J. apply in_map_iff in J.
           destruct J as [t [<- J]]. apply lasts_in in J.
           assert (K1 : tle r s) by (apply F; left; auto).
           assert (K2 : t = s \/ tle s t).
           { destruct J as [J|J]; [auto|]. right. inversion S1 as [|c d S2 F2]; subst. rewrite Forall_forall in F2. auto. }
           unfold tle in K1, K2. destruct K2 as [->|K2]; lia.
        -- intros r' [<-|I].
           ++ exists r. split; [left; auto | split; [auto|lia]].
           ++ destruct (B r' I) as [t (I' & T)]. exists t. split; [right; exact I' | exact T].
Qed.

Lemma tid_inj l : StronglySorted Z.lt (map tid l) -> forall t r, In t l -> In r l -> tid t = tid r -> t = r.
Proof.
  induction l as [|u l IH]; intros A t r It Ir E; [destruct It|].
  cbn [map] in A. inversion A as [|a b A1 F]; subst. rewrite Forall_forall in F.
  destruct Ir as [<-|Ir], It as [<-|It]; auto.
  - specialize (F (tid t) (in_map tid _ _ It)). lia.
  - specialize (F (tid r) (in_map tid _ _ Ir)). lia.
Qed.

Lemma keep_spec x : sorts (map tbudget x) (argsort_budget (map tbudget x)) ->
  let y := keep_highest_budget argsort_budget x in
  StronglySorted Z.lt (map tid y) /\
  (forall r, In r y -> In r x /\ forall s, In s x -> tid s = tid r -> tbudget s <= tbudget r) /\
  (forall r, In r x -> exists s, In s y /\ tid s = tid r).
Proof.
  intros [P SS]. cbn zeta. rewrite keep_lasts. fold tbudget. 
  change (fun r : @trow X => snd (fst r)) with tbudget.
  set (idx := argsort_budget (map tbudget x)) in *. rewrite map_length in P.
  assert (TP : Permutation (sort_by_id (take x idx)) x).
  { rewrite sort_by_id_perm. apply take_perm. exact P. }
  assert (TS : StronglySorted tle (sort_by_id (take x idx))).
  { apply sort_by_id_sorted, take_sorted; [|exact SS]. intros i I.
    apply (Permutation_in _ P) in I. apply in_seq in I. lia. }
  destruct (lasts_spec _ TS) as [A B]. split; [exact A|]. split.
  - intros r I. split; [apply (Permutation_in _ TP), lasts_in, I|]. intros s J E.
    destruct (B s) as [t (I' & T & U)]; [apply (Permutation_in _ (Permutation_sym TP)); exact J|].
    assert (t = r); [|subst; exact U].
    apply (tid_inj _ A); auto. congruence.
  - intros r I. destruct (B r) as [s (J & E & _)]; [apply (Permutation_in _ (Permutation_sym TP)); exact I|]. eauto.
Qed.
End Keep.
