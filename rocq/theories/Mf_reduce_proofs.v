(** The highest budget of each configuration. *)
From Verif Require Export Mf_update_proofs.
Local Notation length := List.length.
Open Scope Z_scope.

Definition klt (a b : key * list pyval) : Prop := key_ltb (fst a) (fst b) = true.

Lemma key_ltb_lt a b : key_ltb a b = true <-> fst a < fst b \/ fst a = fst b /\ snd a < snd b.
Proof.
  unfold key_ltb. rewrite orb_true_iff, andb_true_iff, !Z.ltb_lt, Z.eqb_eq. tauto.
Qed.
Lemma key_ltb_total a b : key_ltb a b = false -> a <> b -> key_ltb b a = true.
Proof.
  intros H N. apply not_true_iff_false in H. rewrite key_ltb_lt in *.
  destruct a as [a1 a2], b as [b1 b2]; cbn [fst snd] in *.
  destruct (Z.lt_trichotomy a1 b1) as [X|[X|X]]; [tauto | | tauto]. subst b1.
  destruct (Z.lt_trichotomy a2 b2) as [Y|[Y|Y]]; [tauto | subst; congruence | tauto].
Qed.
Lemma klt_trans a b c : klt a b -> klt b c -> klt a c.
Proof. unfold klt. rewrite !key_ltb_lt. lia. Qed.

Lemma insert_key_perm r l : Permutation (insert_key r l) (r :: l).
Proof.
  induction l as [|r' l IH]; cbn [insert_key]; [reflexivity|].
  destruct (key_ltb _ _); [|reflexivity]. rewrite IH. apply perm_swap.
Qed.
Lemma sort_index_perm l : Permutation (sort_index l) l.
Proof.
  induction l as [|r l IH]; cbn [sort_index fold_right]; [reflexivity|].
  rewrite insert_key_perm. constructor. exact IH.
Qed.
Lemma insert_key_sorted r l : StronglySorted klt l -> ~ In (fst r) (map fst l) -> StronglySorted klt (insert_key r l).
Proof.
  induction l as [|r' l IH]; intros SS NI; cbn [insert_key].
  - constructor; constructor.
  - inversion SS as [|a b S1 F]; subst. cbn [map In] in NI. destruct (key_ltb (fst r') (fst r)) eqn:E.
    + constructor; [apply IH; tauto|]. rewrite Forall_forall in *. intros x I.
      apply (Permutation_in _ (insert_key_perm r l)) in I. destruct I as [<-|I]; [exact E | auto].
    + assert (K : klt r r') by (apply key_ltb_total; [exact E | tauto]).
      constructor; [exact SS|]. constructor; [exact K|]. rewrite Forall_forall in *.
      intros x I. apply klt_trans with r'; auto.
Qed.
Lemma sort_index_sorted l : NoDup (map fst l) -> StronglySorted klt (sort_index l).
Proof.
  induction l as [|r l IH]; cbn [sort_index fold_right map]; intros N; [constructor|].
  inversion N; subst. apply insert_key_sorted; [apply IH; auto|].
  intros I. apply in_map_iff in I. destruct I as [x [E I]].
  apply (Permutation_in _ (sort_index_perm l)) in I. apply H1. rewrite <- E. apply in_map. exact I.
Qed.

Lemma filter_sorted {A} (R : A -> A -> Prop) p l : StronglySorted R l -> StronglySorted R (filter p l).
Proof.
  induction 1 as [|a l S IH F]; cbn [filter]; [constructor|]. destruct (p a); [|exact IH].
  constructor; [exact IH|]. rewrite Forall_forall in *. intros x I. apply filter_In in I. apply F. tauto.
Qed.

Definition of_id (i : Z) (r : key * list pyval) : bool := Z.eqb (fst (fst r)) i.

Lemma filter_filter_id i j l : i <> j -> filter (of_id i) (filter (fun r => negb (of_id j r)) l) = filter (of_id i) l.
Proof.
  intros N. induction l as [|r l IH]; cbn [filter]; [reflexivity|].
  unfold of_id in *. destruct (Z.eqb_spec (fst (fst r)) j) as [E|E]; cbn [negb filter].
  - rewrite IH. destruct (Z.eqb_spec (fst (fst r)) i); [congruence | reflexivity].
  - rewrite IH. reflexivity.
Qed.
Lemma filter_length_le {A} (p : A -> bool) l : (length (filter p l) <= length l)%nat.
Proof. induction l as [|x l IH]; cbn; [lia|]. destruct (p x); cbn; lia. Qed.

Lemma group_all_in fuel n l i v : (length l <= fuel)%nat ->
  In (i, v) (group_all fuel n l) <->
  (exists r, In r l /\ fst (fst r) = i) /\ v = group_last n (filter (of_id i) l).
Proof.
  revert l; induction fuel as [|fuel IH]; intros l L.
  - destruct l; [|cbn in L; lia]. cbn. split; [intros [] | intros [[r [[] _]] _]].
  - destruct l as [|[[i0 b0] r0] l]; [cbn; split; [intros [] | intros [[r [[] _]] _]]|].
    cbn [group_all split_group].
    set (whole := ((i0, b0), r0) :: l) in *.
    change (fun r : Z * Z * list pyval => fst (fst r) =? i0) with (of_id i0).
    change (fun r : Z * Z * list pyval => negb (fst (fst r) =? i0)) with (fun r => negb (of_id i0 r)).
    assert (L' : (length (filter (fun r => negb (of_id i0 r)) whole) <= fuel)%nat).
    { unfold whole. cbn [filter]. unfold of_id at 1. cbn [fst]. rewrite Z.eqb_refl. cbn [negb].
      pose proof (filter_length_le (fun r => negb (of_id i0 r)) l). unfold whole in L. cbn [length] in L. lia. }
    cbn [In]. rewrite (IH _ L'). clear IH. split.
    + intros [[= <- <-] | [[r [I E]] V]].
      * split; [|reflexivity]. exists ((i0, b0), r0). split; [left; reflexivity | reflexivity].
      * apply filter_In in I. destruct I as [I X]. split; [exists r; auto|].
        rewrite filter_filter_id in V; [exact V|]. intros ->. unfold of_id in X. rewrite E, Z.eqb_refl in X. discriminate.
    + intros [[r [I E]] V]. destruct (Z.eq_dec i i0) as [->|N].
      * left. rewrite V. reflexivity.
      * right. split.
        -- exists r. split; [|exact E]. apply filter_In. split; [exact I|]. unfold of_id. rewrite E.
           apply negb_true_iff. apply Z.eqb_neq. exact N.
        -- rewrite filter_filter_id by exact N. exact V.
Qed.

Lemma group_all_sorted fuel n l : (length l <= fuel)%nat -> StronglySorted klt l ->
  StronglySorted Z.lt (map fst (group_all fuel n l)).
Proof.
  revert l; induction fuel as [|fuel IH]; intros l L SS.
  - destruct l; [constructor | cbn in L; lia].
  - destruct l as [|[[i0 b0] r0] l]; [constructor|]. cbn [group_all split_group].
    set (whole := ((i0, b0), r0) :: l) in *.
    change (fun r : Z * Z * list pyval => negb (fst (fst r) =? i0)) with (fun r => negb (of_id i0 r)).
    assert (L' : (length (filter (fun r => negb (of_id i0 r)) whole) <= fuel)%nat).
    { unfold whole. cbn [filter]. unfold of_id at 1. cbn [fst]. rewrite Z.eqb_refl. cbn [negb].
      pose proof (filter_length_le (fun r => negb (of_id i0 r)) l). unfold whole in L. cbn [length] in L. lia. }
    cbn [map fst]. constructor; [apply IH; [exact L' | apply filter_sorted; exact SS]|].
    rewrite Forall_forall. intros j I. apply in_map_iff in I. destruct I as [[i v] [E I]]. cbn in E. subst i.
    apply (group_all_in fuel n _ j v L') in I. destruct I as [[r [I E]] _]. apply filter_In in I.
    destruct I as [I X]. unfold of_id in X. apply negb_true_iff, Z.eqb_neq in X.
    destruct I as [<-|I]; [cbn [fst] in *; congruence|].
    inversion SS as [|a b S1 F]; subst. rewrite Forall_forall in F. specialize (F r I).
    apply key_ltb_lt in F. cbn [fst snd] in F. lia.
Qed.

Lemma last_budget_snoc g r : last_budget (g ++ [r]) = snd (fst r).
Proof. unfold last_budget. rewrite fold_left_app. reflexivity. Qed.
Lemma last_valid_snoc l v : last_valid (l ++ [v]) = if is_na v then last_valid l else v.
Proof. unfold last_valid. rewrite fold_left_app. reflexivity. Qed.

Lemma sorted_snoc {A} (R : A -> A -> Prop) l x y : StronglySorted R (l ++ [x]) -> In y l -> R y x.
Proof.
  induction l as [|a l IH]; cbn; intros SS I; [destruct I|]. inversion SS as [|b c S1 F]; subst.
  destruct I as [->|I]; [|auto]. rewrite Forall_forall in F. apply F. apply in_app_iff. right. left. reflexivity.
Qed.
Lemma sorted_init {A} (R : A -> A -> Prop) l x : StronglySorted R (l ++ [x]) -> StronglySorted R l.
Proof.
  induction l as [|a l IH]; cbn; intros SS; [constructor|]. inversion SS as [|b c S1 F]; subst.
  constructor; [auto|]. rewrite Forall_forall in *. intros y I. apply F. apply in_app_iff. auto.
Qed.

(** The last valid cell of a sorted group is the one of the highest budget with one. *)
Lemma last_valid_group g i j :
  StronglySorted klt g -> (forall r, In r g -> fst (fst r) = i) ->
  let v := last_valid (map (fun r => nth j (snd r) VNone) g) in
  (exists r, In r g /\ nth j (snd r) VNone = v /\ is_na v = false /\
     forall r', In r' g -> is_na (nth j (snd r') VNone) = false -> snd (fst r') <= snd (fst r))
  \/ (v = VFloat FNaN /\ forall r, In r g -> is_na (nth j (snd r) VNone) = true).
Proof.
  cbn zeta. induction g as [|x g IH] using rev_ind; intros SS ID.
  - right. split; [reflexivity | intros r []].
  - rewrite map_app. cbn [map]. rewrite last_valid_snoc. destruct (is_na (nth j (snd x) VNone)) eqn:E.
    + destruct IH as [[r (I & V & NA & MX)] | [V NA]].
      * apply sorted_init in SS. exact SS.
      * intros r I. apply ID. apply in_app_iff. auto.
      * left. exists r. split; [apply in_app_iff; auto|]. split; [exact V|]. split; [exact NA|].
        intros r' I' N'. apply in_app_iff in I'. destruct I' as [I'|[<-|[]]]; [auto | congruence].
      * right. split; [exact V|]. intros r I. apply in_app_iff in I. destruct I as [I|[<-|[]]]; auto.
    + left. exists x. split; [apply in_app_iff; right; left; reflexivity|]. split; [reflexivity|].
      split; [exact E|]. intros r' I' _. apply in_app_iff in I'. destruct I' as [I'|[<-|[]]]; [|lia].
      pose proof (sorted_snoc _ _ _ _ SS I') as K. apply key_ltb_lt in K.
      rewrite (ID r'), (ID x) in K; [lia | apply in_app_iff; right; left; auto | apply in_app_iff; auto].
Qed.

Lemma last_budget_group g i : g <> [] -> StronglySorted klt g -> (forall r, In r g -> fst (fst r) = i) ->
  exists r, In r g /\ snd (fst r) = last_budget g /\ forall r', In r' g -> snd (fst r') <= last_budget g.
Proof.
  intros NE. destruct (exists_last NE) as [g' [x ->]]. intros SS ID. rewrite last_budget_snoc.
  exists x. split; [apply in_app_iff; right; left; auto|]. split; [reflexivity|].
  intros r' I'. apply in_app_iff in I'. destruct I' as [I'|[<-|[]]]; [|lia].
  pose proof (sorted_snoc _ _ _ _ SS I') as K. apply key_ltb_lt in K.
  rewrite (ID r'), (ID x) in K; [lia | apply in_app_iff; right; left; auto | apply in_app_iff; auto].
Qed.

Lemma reduce_unfold f i v : In (i, v) (reduce_to_max_seen_budgets f) <->
  (exists b, In (i, b) (labels f)) /\
  v = group_last (length (f_cols f)) (filter (of_id i) (sort_index (f_rows f))).
Proof.
  unfold reduce_to_max_seen_budgets. rewrite group_all_in.
  - split; intros [A B]; (split; [|exact B]).
    + destruct A as [[[i' b] r] [I E]]. cbn in E. subst i'. exists b. unfold labels.
      apply in_map_iff. exists ((i, b), r). split; [reflexivity|]. apply (Permutation_in _ (sort_index_perm _)). exact I.
    + destruct A as [b I]. unfold labels in I. apply in_map_iff in I. destruct I as [[k r] [E I]].
      cbn in E. subst k. exists ((i, b), r). split; [|reflexivity].
      apply (Permutation_in _ (Permutation_sym (sort_index_perm _))). exact I.
  - rewrite (Permutation_length (sort_index_perm _)). lia.
Qed.

Lemma in_group f i r : wf_frame f -> In r (filter (of_id i) (sort_index (f_rows f))) <->
  exists b c, r = ((i, b), c) /\ row_at f (i, b) = Some c.
Proof.
  intros W. rewrite filter_In. unfold of_id. rewrite Z.eqb_eq. split.
  - intros [I E]. destruct r as [[i' b] c]. cbn in E. subst i'. exists b, c. split; [reflexivity|].
    apply (find_in_in _ _ _ (wf_labels f W)). apply (Permutation_in _ (sort_index_perm _)). exact I.
  - intros [b [c [-> R]]]. split; [|reflexivity].
    apply (Permutation_in _ (Permutation_sym (sort_index_perm _))). apply (find_in_in _ _ _ (wf_labels f W)). exact R.
Qed.

Lemma reduce_ids f : wf_frame f ->
  StronglySorted Z.lt (map fst (reduce_to_max_seen_budgets f)) /\
  forall i, In i (map fst (reduce_to_max_seen_budgets f)) <-> exists b, In (i, b) (labels f).
Proof.
  intros W. split.
  - unfold reduce_to_max_seen_budgets. apply group_all_sorted.
    + rewrite (Permutation_length (sort_index_perm _)). lia.
    + apply sort_index_sorted. apply W.
  - intros i. split.
    + intros I. apply in_map_iff in I. destruct I as [[i' v] [E I]]. cbn in E. subst i'. apply reduce_unfold in I. tauto.
    + intros H. apply in_map_iff. exists (i, group_last (length (f_cols f)) (filter (of_id i) (sort_index (f_rows f)))).
      split; [reflexivity|]. apply reduce_unfold. auto.
Qed.

Lemma reduce_row f i b cells : wf_frame f -> In (i, (b, cells)) (reduce_to_max_seen_budgets f) ->
  In (i, b) (labels f) /\ (forall b', In (i, b') (labels f) -> b' <= b) /\
  length cells = length (f_cols f) /\
  forall j v, nth_error cells j = Some v -> latest f i j v.
Proof.
  intros W I. apply reduce_unfold in I. destruct I as [[b0 I0] E].
  set (g := filter (of_id i) (sort_index (f_rows f))) in *.
  assert (SS : StronglySorted klt g) by (apply filter_sorted, sort_index_sorted, W).
  assert (ID : forall r, In r g -> fst (fst r) = i).
  { intros r J. apply in_group in J; [|exact W]. destruct J as [b' [c [-> _]]]. reflexivity. }
  assert (LAB : forall b', In (i, b') (labels f) <-> exists r, In r g /\ snd (fst r) = b').
  { intros b'. split.
    - intros J. unfold labels in J. apply in_map_iff in J. destruct J as [[k c] [K J]]. cbn in K. subst k.
      exists ((i, b'), c). split; [|reflexivity]. apply in_group; [exact W|]. exists b', c. split; [reflexivity|].
      apply (find_in_in _ _ _ (wf_labels f W)). exact J.
    - intros [r [J K]]. apply in_group in J; [|exact W]. destruct J as [b'' [c [-> R]]]. cbn in K. subst b''.
      apply (find_in_in _ _ _ (wf_labels f W)) in R. unfold labels. apply in_map_iff. exists ((i, b'), c). auto. }
  assert (NE : g <> []).
  { intros G. apply LAB in I0. destruct I0 as [r [J _]]. rewrite G in J. destruct J. }
  unfold group_last in E. injection E as -> ->.
  destruct (last_budget_group g i NE SS ID) as [r [J [K MX]]].
  split; [apply LAB; eauto|]. split.
  { intros b' L. apply LAB in L. destruct L as [r' [J' <-]]. auto. }
  split; [rewrite map_length, seq_length; reflexivity|].
  intros j v N. assert (jl : (j < length (f_cols f))%nat).
  { assert (j < length (map (fun j => last_valid (map (fun r => nth j (snd r) VNone) g)) (seq 0 (length (f_cols f)))))%nat
      by (apply nth_error_Some; congruence). rewrite map_length, seq_length in H. exact H. }
  assert (VE : v = last_valid (map (fun r => nth j (snd r) VNone) g)).
  { assert (S1 : nth_error (seq 0 (length (f_cols f))) j = Some j).
    { rewrite (nth_error_nth' _ 0%nat) by (rewrite seq_length; exact jl). rewrite seq_nth by exact jl. reflexivity. }
    rewrite (map_nth_error _ _ _ S1) in N. congruence. }
  assert (CELL : forall b c, row_at f (i, b) = Some c -> nth_error c j = Some (nth j c VNone)).
  { intros b' c R. apply nth_error_nth'. apply (find_in_in _ _ _ (wf_labels f W)) in R.
    rewrite (wf_rows f W _ _ R). exact jl. }
  destruct (last_valid_group g i j SS ID) as [[r' (I' & V & NA & MX')] | [V NA]]; rewrite <- VE in *.
  - left. apply in_group in I'; [|exact W]. destruct I' as [b' [c [-> R]]]. cbn [fst snd] in *.
    exists b', c. split; [exact R|]. split; [rewrite (CELL _ _ R), V; reflexivity|]. split; [exact NA|].
    intros b'' c'' w R'' N'' NA''. specialize (MX' ((i, b''), c'')). cbn [fst snd] in MX'. apply MX'.
    + apply in_group; eauto.
    + rewrite (CELL _ _ R'') in N''. congruence.
  - right. split; [exact V|]. intros b' c w R N'. rewrite (CELL _ _ R) in N'. injection N' as <-.
    specialize (NA ((i, b'), c)). cbn [snd] in NA. apply NA. apply in_group; eauto.
Qed.

Lemma reduce_complete f i b cells r : wf_frame f -> In (i, (b, cells)) (reduce_to_max_seen_budgets f) ->
  row_at f (i, b) = Some r -> (forall v, In v r -> is_na v = false) -> cells = r.
Proof.
  intros W I R NA. destruct (reduce_row f i b cells W I) as (L & MX & LEN & LT).
  assert (LR : length r = length (f_cols f)).
  { apply (wf_rows f W (i, b)). apply (find_in_in _ _ _ (wf_labels f W)). exact R. }
  apply nth_ext with VNone VNone; [lia|]. intros j J.
  assert (C : nth_error cells j = Some (nth j cells VNone)) by (apply nth_error_nth'; exact J).
  assert (D : nth_error r j = Some (nth j r VNone)) by (apply nth_error_nth'; lia).
  assert (ND : is_na (nth j r VNone) = false) by (apply NA; apply nth_In; lia).
  destruct (LT j _ C) as [[b' [r' (R' & N' & NA' & MX')]] | [_ ALL]].
  - assert (b <= b') by (apply (MX' b r _ R D ND)).
    assert (b' <= b).
    { apply MX. apply (find_in_in _ _ _ (wf_labels f W)) in R'. unfold labels. apply in_map_iff. exists ((i, b'), r'). auto. }
    assert (b' = b) by lia. subst b'. rewrite R in R'. injection R' as <-. congruence.
  - rewrite (ALL b r _ R D) in ND. discriminate.
Qed.

(** ** max_observed_levels *)
Lemma insert_id_in i l x : In x (insert_id i l) <-> x = i \/ In x l.
Proof.
  induction l as [|j l IH]; cbn [insert_id]; [cbn; intuition congruence|].
  destruct (Z.ltb j i); [cbn [In]; rewrite IH; intuition|].
  destruct (Z.eqb_spec i j); cbn [In]; intuition congruence.
Qed.
Lemma insert_id_sorted i l : StronglySorted Z.lt l -> StronglySorted Z.lt (insert_id i l).
Proof.
  induction l as [|j l IH]; intros SS; cbn [insert_id]; [constructor; constructor|].
  inversion SS as [|a b S1 F]; subst. rewrite Forall_forall in F. destruct (Z.ltb_spec j i).
  - constructor; [auto|]. rewrite Forall_forall. intros x I. apply insert_id_in in I.
    destruct I as [->|I]; [lia | auto].
  - destruct (Z.eqb_spec i j); [exact SS|]. constructor; [exact SS|].
    rewrite Forall_forall. intros x [<-|I]; [lia | specialize (F x I); lia].
Qed.
Lemma sort_ids_in l x : In x (fold_right insert_id [] l) <-> In x l.
Proof. induction l as [|i l IH]; cbn [fold_right In]; [tauto|]. rewrite insert_id_in, IH. intuition. Qed.
Lemma sort_ids_sorted l : StronglySorted Z.lt (fold_right insert_id [] l).
Proof. induction l as [|i l IH]; cbn [fold_right]; [constructor | apply insert_id_sorted; exact IH]. Qed.

Lemma fold_max_snd (l : list (key * list pyval)) m :
  m <= fold_left (fun m r => Z.max m (snd (fst r))) l m /\
  (forall r, In r l -> snd (fst r) <= fold_left (fun m r => Z.max m (snd (fst r))) l m) /\
  (fold_left (fun m r => Z.max m (snd (fst r))) l m = m \/
   exists r, In r l /\ fold_left (fun m r => Z.max m (snd (fst r))) l m = snd (fst r)).
Proof.
  revert m; induction l as [|x l IH]; intros m; cbn [fold_left].
  - split; [lia|]. split; [intros r []|auto].
  - destruct (IH (Z.max m (snd (fst x)))) as (A & B & C). split; [lia|]. split.
    + intros r [<-|I]; [lia | auto].
    + destruct C as [C|[r [I C]]]; [|right; exists r; cbn; auto].
      destruct (Z.max_spec m (snd (fst x))) as [[_ E]|[_ E]].
      * right. exists x. split; [left; auto | congruence].
      * left. congruence.
Qed.
Lemma max_budget_spec f i : (exists b, In (i, b) (labels f)) ->
  In (i, max_budget f i) (labels f) /\ forall b, In (i, b) (labels f) -> b <= max_budget f i.
Proof.
  intros [b0 I0]. unfold max_budget, labels in *.
  change (fun b : Z * Z * list pyval => fst (fst b) =? i) with (of_id i).
  assert (M : forall b, In (i, b) (map fst (f_rows f)) <-> exists r, In r (filter (of_id i) (f_rows f)) /\ snd (fst r) = b).
  { intros b. split.
    - intros I. apply in_map_iff in I. destruct I as [[k c] [E I]]. cbn in E. subst k. exists ((i, b), c).
      split; [|reflexivity]. apply filter_In. split; [exact I | apply Z.eqb_refl].
    - intros [[[i' b'] c] [I E]]. apply filter_In in I. destruct I as [I X]. unfold of_id in X. cbn in X, E.
      apply Z.eqb_eq in X. subst. apply in_map_iff. exists ((i, b), c). auto. }
  rewrite M. destruct (filter (of_id i) (f_rows f)) as [|x l].
  { apply M in I0. destruct I0 as [r [[] _]]. }
  destruct (fold_max_snd l (snd (fst x))) as (A & B & C). split.
  - destruct C as [C|[r [I C]]]; [exists x | exists r]; split; cbn; auto.
  - intros b I. apply M in I. destruct I as [r [[<-|I] <-]]; [exact A | apply B; exact I].
Qed.
Lemma levels_spec f :
  StronglySorted Z.lt (map fst (max_observed_levels f)) /\
  (forall i, In i (map fst (max_observed_levels f)) <-> exists b, In (i, b) (labels f)) /\
  (forall i b, In (i, b) (max_observed_levels f) ->
     In (i, b) (labels f) /\ forall b', In (i, b') (labels f) -> b' <= b).
Proof.
  assert (IDS : forall i, In i (sorted_ids f) <-> exists b, In (i, b) (labels f)).
  { intros i. unfold sorted_ids. rewrite sort_ids_in, in_map_iff. unfold labels. split.
    - intros [[[i' b] r] [E I]]. cbn in E. subst. exists b. apply in_map_iff. exists ((i, b), r). auto.
    - intros [b I]. apply in_map_iff in I. destruct I as [[k r] [E I]]. cbn in E. subst. exists ((i, b), r). auto. }
  unfold max_observed_levels. rewrite map_map. cbn [fst]. rewrite map_id. split; [apply sort_ids_sorted|].
  split; [exact IDS|]. intros i b I. apply in_map_iff in I. destruct I as [i' [[= <- <-] I]].
  apply max_budget_spec. apply IDS. exact I.
Qed.
