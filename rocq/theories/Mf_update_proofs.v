(** Updating rows of the table. *)
From Verif Require Export Mf_proofs.
Local Notation length := List.length.
Open Scope Z_scope.

(** ** Lists *)
Lemma set_nth_length {A} i (v : A) l : length (set_nth i v l) = length l.
Proof. revert i; induction l as [|x l IH]; intros [|i]; cbn; auto. Qed.
Lemma nth_set_nth {A} i (v : A) l j :
  nth_error (set_nth i v l) j = if Nat.eqb i j then (match nth_error l j with Some _ => Some v | None => None end) else nth_error l j.
Proof.
  revert i j; induction l as [|x l IH]; intros i j; cbn [set_nth].
  - destruct i, j; cbn; try reflexivity. destruct (Nat.eqb i j); reflexivity.
  - destruct i as [|i], j as [|j]; cbn [set_nth nth_error Nat.eqb]; auto.
Qed.

Lemma index_of_some n l j : index_of n l = Some j -> nth_error l j = Some n.
Proof.
  revert j; induction l as [|x l IH]; intros j; cbn; [discriminate|].
  destruct (String.eqb_spec n x).
  - subst. intros [= <-]. reflexivity.
  - destruct (index_of n l); cbn; [|discriminate]. intros [= <-]. cbn. auto.
Qed.
Lemma index_of_in n l : In n l -> exists j, index_of n l = Some j.
Proof.
  induction l as [|x l IH]; cbn; [intros []|]. intros I. destruct (String.eqb_spec n x); [eauto|].
  destruct I as [->|I]; [congruence|]. destruct (IH I) as [j ->]. cbn. eauto.
Qed.
Lemma index_of_lt n l j : index_of n l = Some j -> (j < length l)%nat.
Proof. intros H. apply index_of_some in H. apply nth_error_Some. congruence. Qed.
Lemma index_of_inj l a b j : index_of a l = Some j -> index_of b l = Some j -> a = b.
Proof. intros A B. apply index_of_some in A. apply index_of_some in B. congruence. Qed.

(** ** One row *)
Lemma set_cells_length cols names vals r : length (set_cells cols names vals r) = length r.
Proof.
  unfold set_cells. revert r. induction (combine names vals) as [|[n v] l IH]; intros r; cbn [fold_left]; auto.
  rewrite IH. cbn [fst snd]. destruct (index_of n cols); [apply set_nth_length | reflexivity].
Qed.

Lemma set_cells_other cols names vals r c j : ~ In c names -> index_of c cols = Some j ->
  nth_error (set_cells cols names vals r) j = nth_error r j.
Proof.
  unfold set_cells. revert vals r. induction names as [|n names IH]; intros vals r NI E; [reflexivity|].
  destruct vals as [|v vals]; [reflexivity|]. cbn [combine fold_left fst snd].
  rewrite IH; [|cbn in NI; tauto | exact E].
  destruct (index_of n cols) as [i|] eqn:X; [|reflexivity].
  rewrite nth_set_nth. destruct (Nat.eqb_spec i j); [|reflexivity].
  subst i. exfalso. apply NI. left. apply (index_of_inj _ _ _ _ X E).
Qed.

Lemma set_cells_named cols names vals r c m v j : NoDup names ->
  nth_error names m = Some c -> nth_error vals m = Some v -> index_of c cols = Some j ->
  (j < length r)%nat ->
  nth_error (set_cells cols names vals r) j = Some v.
Proof.
  unfold set_cells. revert vals r m. induction names as [|n names IH]; intros vals r m ND A B E L.
  - destruct m; discriminate.
  - inversion ND as [|a b NI N']; subst.
    destruct vals as [|w vals]; [destruct m; discriminate|]. cbn [combine fold_left fst snd].
    destruct m as [|m]; cbn [nth_error] in A, B.
    + injection A as ->. injection B as ->. rewrite E.
      pose proof (set_cells_other cols names vals (set_nth j v r) c j NI E) as O.
      unfold set_cells in O. rewrite O, nth_set_nth, Nat.eqb_refl.
      destruct (nth_error r j) eqn:X; [reflexivity|]. apply nth_error_None in X. lia.
    + apply (IH vals _ m); auto. destruct (index_of n cols); [rewrite set_nth_length|]; exact L.
Qed.

(** ** Positions *)
Lemma positions_from_none i k rows : ~ In k (map fst rows) -> positions_from i k rows = [].
Proof.
  revert i; induction rows as [|[k' r] rows IH]; intros i NI; cbn [positions_from]; [reflexivity|].
  cbn [map fst In] in NI. rewrite (proj2 (key_eqb_neq (fst (k', r)) k)) by (cbn; tauto).
  rewrite IH by tauto. reflexivity.
Qed.
Lemma positions_from_one i k rows : NoDup (map fst rows) -> In k (map fst rows) ->
  exists p r, positions_from i k rows = [(i + p)%nat] /\ nth_error rows p = Some (k, r).
Proof.
  revert i; induction rows as [|[k' r] rows IH]; intros i N I; cbn [map fst In] in *; [destruct I|].
  inversion N as [|a b NI N']; subst. cbn [positions_from fst]. destruct (key_eqb k' k) eqn:E.
  - apply key_eqb_eq in E. subst k'. rewrite positions_from_none by exact NI.
    exists 0%nat, r. cbn. rewrite Nat.add_0_r. auto.
  - apply key_eqb_neq in E. destruct I as [I|I]; [congruence|].
    destruct (IH (S i) N' I) as [p [r' [A B]]]. exists (S p), r'. cbn [app]. rewrite A.
    split; [f_equal; lia | exact B].
Qed.

Lemma nth_error_find l p k r : NoDup (map fst l) -> nth_error l p = Some (k, r) -> find_in l k = Some r.
Proof. intros N E. apply find_in_in; auto. apply nth_error_In with p. exact E. Qed.

Lemma same_pos (l : list (key * list pyval)) p q k r r' : NoDup (map fst l) -> nth_error l p = Some (k, r) -> nth_error l q = Some (k, r') -> p = q.
Proof.
  intros N A B. apply (proj1 (NoDup_nth_error (map fst l)) N).
  - rewrite map_length. apply nth_error_Some. congruence.
  - rewrite (map_nth_error fst p l A), (map_nth_error fst q l B). reflexivity.
Qed.

(** ** Several rows *)
Definition set_rows (cols names : list string) := fold_left (set_row cols names).

Lemma set_row_labels cols names rows iv : map fst (set_row cols names rows iv) = map fst rows.
Proof.
  unfold set_row. destruct (nth_error rows (fst iv)) as [[k r]|] eqn:E; [|reflexivity].
  set (v := set_cells cols names (snd iv) r). clearbody v. revert E. generalize (fst iv) as i.
  induction rows as [|[k' r'] rows IH]; intros [|i]; cbn; try discriminate; intros E.
  - injection E as -> ->. reflexivity.
  - f_equal. auto.
Qed.
Lemma set_rows_labels cols names l rows : map fst (set_rows cols names l rows) = map fst rows.
Proof.
  unfold set_rows. revert rows; induction l as [|iv l IH]; intros rows; cbn [fold_left]; [reflexivity|].
  rewrite IH. apply set_row_labels.
Qed.

Lemma nth_set_row cols names rows iv q :
  nth_error (set_row cols names rows iv) q =
  if Nat.eqb (fst iv) q then option_map (fun kr => (fst kr, set_cells cols names (snd iv) (snd kr))) (nth_error rows q)
  else nth_error rows q.
Proof.
  unfold set_row. destruct (nth_error rows (fst iv)) as [[k r]|] eqn:E.
  - rewrite nth_set_nth. destruct (Nat.eqb_spec (fst iv) q); [|reflexivity]. subst q. rewrite E. reflexivity.
  - destruct (Nat.eqb_spec (fst iv) q); [|reflexivity]. subst q. rewrite E. reflexivity.
Qed.

Lemma set_rows_other cols names l rows q : ~ In q (map fst l) ->
  nth_error (set_rows cols names l rows) q = nth_error rows q.
Proof.
  unfold set_rows. revert rows; induction l as [|iv l IH]; intros rows NI; cbn [fold_left]; [reflexivity|].
  cbn [map In] in NI. rewrite IH by tauto. rewrite nth_set_row.
  destruct (Nat.eqb_spec (fst iv) q); [tauto | reflexivity].
Qed.
Lemma set_rows_at cols names l rows q vals : NoDup (map fst l) -> In (q, vals) l ->
  nth_error (set_rows cols names l rows) q =
  option_map (fun kr => (fst kr, set_cells cols names vals (snd kr))) (nth_error rows q).
Proof.
  revert rows; induction l as [|iv l IH]; intros rows N I; [destruct I|].
  cbn [map] in N. inversion N as [|a b NI N']; subst.
  change (set_rows cols names (iv :: l) rows) with (set_rows cols names l (set_row cols names rows iv)).
  destruct I as [->|I].
  - rewrite set_rows_other by exact NI. rewrite nth_set_row. cbn [fst snd]. rewrite Nat.eqb_refl. reflexivity.
  - rewrite IH by auto. rewrite nth_set_row. destruct (Nat.eqb_spec (fst iv) q) as [X|]; [|reflexivity].
    exfalso. apply NI. rewrite X. apply in_map_iff. exists (q, vals). auto.
Qed.

(** All rows that are set lie in the frame, at different positions. *)
Lemma flat_positions rows index : NoDup (map fst rows) -> NoDup index -> incl index (map fst rows) ->
  exists pos, flat_map (fun k => positions k rows) index = pos /\ length pos = length index /\ NoDup pos /\
    (forall n k, nth_error index n = Some k -> exists p r, nth_error pos n = Some p /\ nth_error rows p = Some (k, r)) /\
    (forall p, In p pos -> exists k r, In k index /\ nth_error rows p = Some (k, r)).
Proof.
  intros N. induction index as [|k index IH]; intros ND INC.
  - exists []. repeat split; try constructor; [intros [|n] k; discriminate | intros p []].
  - inversion ND as [|a b NI ND']; subst. destruct IH as [pos (A & B & C & D & F)]; auto.
    { intros x I. apply INC. right. exact I. }
    destruct (positions_from_one 0 k rows N) as [p [r [P Q]]]; [apply INC; left; auto|].
    cbn [Nat.add] in P. exists (p :: pos). cbn [flat_map]. unfold positions at 1. rewrite P, A. cbn [app].
    repeat split.
    + cbn [length]. lia.
    + constructor; [|exact C]. intros I. destruct (F p I) as [k' [r' [I' E']]].
      assert (k' = k) by congruence. subst k'. contradiction.
    + intros [|n] k' E; cbn [nth_error] in E |- *.
      * injection E as <-. exists p, r. auto.
      * apply D. exact E.
    + intros q [<- | I]; [exists k, r; cbn; auto|]. destruct (F q I) as [k' [r' [I' E']]].
      exists k', r'. cbn. auto.
Qed.

Lemma new_columns_nil f names : incl names (f_cols f) -> new_columns f names = [].
Proof.
  intros I. unfold new_columns.
  assert (H : forall l, (forall x, In x l -> In x (f_cols f)) ->
                   filter (fun n => negb (existsb (String.eqb n) (f_cols f))) l = []).
  { induction l as [|x l IH]; intros H; [reflexivity|]. cbn [filter].
    replace (existsb (String.eqb x) (f_cols f)) with true.
    - cbn [negb]. apply IH. intros y J. apply H. right. exact J.
    - symmetry. apply existsb_exists. exists x. split; [apply H; left; auto | apply String.eqb_refl]. }
  apply H. intros x J. apply nodup_In in J. auto.
Qed.
Lemma with_columns_same f names : incl names (f_cols f) -> with_columns f names = f.
Proof.
  intros I. unfold with_columns. rewrite new_columns_nil by exact I. cbn [length repeat].
  rewrite app_nil_r. destruct f as [cols rows]. cbn [f_cols f_rows]. f_equal.
  rewrite <- (map_id rows) at 2. apply map_ext. intros [k r]. cbn. rewrite app_nil_r. reflexivity.
Qed.

(** ** Which updates are refused *)
Lemma count_true_filter {A} (p : A -> bool) l : count_true (map p l) = length (filter p l).
Proof.
  unfold count_true. induction l as [|x l IH]; cbn; [reflexivity|]. destruct (p x); cbn; rewrite IH; reflexivity.
Qed.
Lemma in_index r index : existsb (key_eqb (fst (r : key * list pyval))) index = true <-> In (fst r) index.
Proof.
  rewrite existsb_exists. split.
  - intros [k [I E]]. apply key_eqb_eq in E. congruence.
  - intros I. exists (fst r). split; [exact I | apply key_eqb_refl].
Qed.
Lemma hits_labels rows index :
  map fst (filter (fun r : key * list pyval => existsb (key_eqb (fst r)) index) rows)
  = filter (fun k => existsb (key_eqb k) index) (map fst rows).
Proof. induction rows as [|r rows IH]; cbn; [reflexivity|]. destruct (existsb _ _); cbn; rewrite IH; reflexivity. Qed.
Lemma hits_incl l index : incl (filter (fun k => existsb (key_eqb k) index) l) index.
Proof.
  intros k I. apply filter_In in I. destruct I as [_ E]. apply existsb_exists in E.
  destruct E as [k' [I' E]]. apply key_eqb_eq in E. congruence.
Qed.

Lemma hits_all rows index : NoDup (map fst rows) -> NoDup index -> incl index (map fst rows) ->
  length (filter (fun r : key * list pyval => existsb (key_eqb (fst r)) index) rows) = length index.
Proof.
  intros N ND I. rewrite <- (map_length fst), hits_labels. apply Nat.le_antisymm.
  - apply NoDup_incl_length; [apply NoDup_filter; exact N | apply hits_incl].
  - apply NoDup_incl_length; [exact ND|]. intros k J. apply filter_In. split; [auto|].
    apply existsb_exists. exists k. split; [exact J | apply key_eqb_refl].
Qed.
Lemma hits_missing rows index k : NoDup (map fst rows) -> In k index -> ~ In k (map fst rows) ->
  (length (filter (fun r : key * list pyval => existsb (key_eqb (fst r)) index) rows) < length index)%nat.
Proof.
  intros N I NI. rewrite <- (map_length fst), hits_labels.
  destruct (in_split _ _ I) as [a [b ->]].
  assert (H : (length (filter (fun k' => existsb (key_eqb k') (a ++ k :: b)) (map fst rows)) <= length (a ++ b))%nat).
  { apply NoDup_incl_length; [apply NoDup_filter; exact N|]. intros x J.
    assert (x <> k) by (intros ->; apply filter_In in J; tauto).
    apply hits_incl in J. rewrite in_app_iff in *. cbn in J. destruct J as [J|[J|J]]; auto. congruence. }
  rewrite app_length in *. cbn [length]. lia.
Qed.

Lemma update_missing f data index error k : wf_frame f -> In k index -> ~ In k (labels f) ->
  update_data f data index error = (f, if error then Err ValueError else Ok tt).
Proof.
  intros W I NI. unfold update_data. rewrite isin_ok by (intros ->; destruct I).
  rewrite count_true_filter.
  pose proof (hits_missing (f_rows f) index k (wf_labels f W) I NI) as H.
  destruct (Nat.eqb_spec (length (filter (fun r => existsb (key_eqb (fst r)) index) (f_rows f))) (length index)); [lia|].
  reflexivity.
Qed.

(** ** Successful updates *)
Lemma transpose_length n cols : length (transpose n cols) = n.
Proof. revert cols; induction n; intros; cbn; auto. Qed.
Lemma transpose_nth n cols m : (m < n)%nat ->
  nth_error (transpose n cols) m = Some (map (fun c => nth m c VNone) cols).
Proof.
  revert cols m; induction n as [|n IH]; intros cols m L; [lia|]. cbn [transpose].
  destruct m as [|m]; cbn [nth_error].
  - f_equal. apply map_ext. intros [|x c]; reflexivity.
  - rewrite IH by lia. f_equal. rewrite map_map. apply map_ext. intros [|x c]; cbn [tl nth]; [destruct m|]; reflexivity.
Qed.
Lemma fold_min_const (l : list (list pyval)) n : (forall c, In c l -> length c = n) ->
  fold_left (fun m (c' : list pyval) => Nat.min m (length c')) l n = n.
Proof.
  revert n. induction l as [|c l IH]; intros n H; cbn [fold_left]; [reflexivity|].
  rewrite (H c (or_introl eq_refl)), Nat.min_id. apply IH. intros; apply H; right; auto.
Qed.

Lemma nth_combine {A B} (l : list A) (m : list B) n a b :
  nth_error l n = Some a -> nth_error m n = Some b -> nth_error (combine l m) n = Some (a, b).
Proof.
  revert l m; induction n as [|n IH]; intros [|x l] [|y m]; cbn; try discriminate; intros; [congruence | auto].
Qed.

Lemma update_success f data index error : wf_frame f -> fits_update data index ->
  incl (map fst data) (f_cols f) -> incl index (labels f) ->
  exists f', update_data f data index error = (f', Ok tt) /\
    f_cols f' = f_cols f /\ labels f' = labels f /\
    (forall n k name vals, nth_error index n = Some k -> In (name, vals) data ->
       cell_at f' k name = nth_error vals n) /\
    (forall k name, ~ In k index \/ ~ In name (map fst data) -> cell_at f' k name = cell_at f k name).
Proof.
  intros W (NE & ND & DE & NN & LEN) IC II. unfold update_data. rewrite isin_ok by exact NE.
  rewrite count_true_filter.
  rewrite (hits_all (f_rows f) index (wf_labels f W) ND II), Nat.eqb_refl.
  destruct data as [|d0 data0] eqn:ED; [congruence|]. rewrite <- ED in *. clear DE.
  unfold loc_set. rewrite with_columns_same by exact IC.
  replace (forallb _ index) with true; cycle 1.
  { symmetry. apply forallb_forall. intros k I.
    destruct (positions_from_one 0 k (f_rows f) (wf_labels f W) (II k I)) as [p [r [P _]]].
    unfold positions. rewrite P. reflexivity. }
  cbn [negb]. destruct (flat_positions (f_rows f) index (wf_labels f W) ND II) as [pos (-> & LP & NP & AT & BACK)].
  assert (Z : zip_columns (map snd data) = transpose (length index) (map snd data)).
  { rewrite ED. cbn [map zip_columns]. f_equal.
    assert (H : forall c, In c (map snd (d0 :: data0)) -> length c = length index).
    { intros c I. apply in_map_iff in I. destruct I as [[nm vs] [<- I]]. rewrite <- ED in I. apply (LEN nm vs I). }
    cbn [map] in H. rewrite (H (snd d0) (or_introl eq_refl)). apply fold_min_const. intros c I. apply H. right. exact I. }
  rewrite Z, transpose_length, LP, Nat.eqb_refl.
  set (vals := transpose (length index) (map snd data)). set (names := map fst data) in *.
  eexists. split; [reflexivity|]. cbn [f_cols f_rows].
  change (fold_left (set_row (f_cols f) names) (combine pos vals) (f_rows f))
    with (set_rows (f_cols f) names (combine pos vals) (f_rows f)).
  assert (LV : length vals = length pos) by (unfold vals; rewrite transpose_length; auto).
  assert (MF : map fst (combine pos vals) = pos) by (apply map_fst_combine; auto).
  split; [reflexivity|]. split; [unfold labels; cbn [f_rows]; apply set_rows_labels|].
  set (rows' := set_rows (f_cols f) names (combine pos vals) (f_rows f)).
  assert (LB' : NoDup (map fst rows')) by (unfold rows'; rewrite set_rows_labels; apply W).
  split.
  - intros n k name vs E I. destruct (AT n k E) as [p [r [P R]]].
    assert (Hn : (n < length index)%nat) by (apply nth_error_Some; congruence).
    assert (V : nth_error vals n = Some (map (fun c => nth n c VNone) (map snd data))) by (apply transpose_nth; exact Hn).
    assert (IN : In (p, map (fun c => nth n c VNone) (map snd data)) (combine pos vals)).
    { apply nth_error_In with n. apply nth_combine; auto. }
    assert (RW : nth_error rows' p = Some (k, set_cells (f_cols f) names (map (fun c => nth n c VNone) (map snd data)) r)).
    { unfold rows'. rewrite (set_rows_at _ _ _ _ p (map (fun c => nth n c VNone) (map snd data))); [|rewrite MF; exact NP | exact IN].
      rewrite R. reflexivity. }
    assert (NMI : In name names) by (apply in_map_iff; exists (name, vs); auto).
    destruct (index_of_in name (f_cols f) (IC name NMI)) as [j J].
    unfold cell_at. rewrite row_at_find. cbn [f_rows f_cols].
    rewrite (nth_error_find rows' p k _ LB' RW), J.
    destruct (In_nth_error _ _ I) as [m M].
    rewrite (set_cells_named (f_cols f) names _ r name m (nth n vs VNone) j); auto.
    + symmetry. apply nth_error_nth'. rewrite (LEN name vs I). exact Hn.
    + unfold names. rewrite (map_nth_error fst m data M). reflexivity.
    + rewrite map_map. rewrite (map_nth_error (fun x => nth n (snd x) VNone) m data M). reflexivity.
    + rewrite (wf_rows f W k r (nth_error_In _ _ R)). apply (index_of_lt _ _ _ J).
  - intros k name OR. unfold cell_at. rewrite !row_at_find. cbn [f_rows f_cols]. fold rows'.
    destruct (in_dec key_eq_dec k (labels f)) as [I|NI].
    + destruct (positions_from_one 0 k (f_rows f) (wf_labels f W) I) as [p [r [_ R]]].
      rewrite (nth_error_find (f_rows f) p k r (wf_labels f W) R).
      destruct (in_dec key_eq_dec k index) as [J|NJ].
      * destruct OR as [OR|OR]; [contradiction|].
        destruct (In_nth_error _ _ J) as [n E]. destruct (AT n k E) as [p' [r' [P' R']]].
        assert (p' = p) by (apply (same_pos _ _ _ _ _ _ (wf_labels f W) R' R)). subst p'.
        assert (IN : exists w, In (p, w) (combine pos vals)).
        { assert (In p (map fst (combine pos vals))) as X by (rewrite MF; apply nth_error_In with n; exact P').
          apply in_map_iff in X. destruct X as [[q w] [Q X]]. cbn in Q. subst q. eauto. }
        destruct IN as [w IN].
        assert (RW : nth_error rows' p = Some (k, set_cells (f_cols f) names w r)).
        { unfold rows'. rewrite (set_rows_at _ _ _ _ p w); [|rewrite MF; exact NP | exact IN]. rewrite R. reflexivity. }
        rewrite (nth_error_find rows' p k _ LB' RW). destruct (index_of name (f_cols f)) eqn:X; [|reflexivity].
        apply (set_cells_other _ _ _ _ name); auto.
      * assert (RW : nth_error rows' p = Some (k, r)).
        { unfold rows'. rewrite set_rows_other; [exact R|]. rewrite MF. intros X.
          destruct (BACK p X) as [k' [r' [I' E']]]. congruence. }
        rewrite (nth_error_find rows' p k _ LB' RW). reflexivity.
    + rewrite (proj2 (find_in_none (f_rows f) k) NI).
      rewrite (proj2 (find_in_none rows' k)); [reflexivity|]. unfold rows'. rewrite set_rows_labels. exact NI.
Qed.

Lemma update_failure f data index error f' e : wf_frame f -> incl (map fst data) (f_cols f) ->
  update_data f data index error = (f', Err e) -> f' = f.
Proof.
  intros W IC. unfold update_data. destruct (isin f index); [|congruence].
  destruct (Nat.eqb _ _); [|destruct error; congruence].
  destruct data as [|d data]; [congruence|]. unfold loc_set. rewrite with_columns_same by exact IC.
  destruct (negb _); [congruence|]. destruct (Nat.eqb _ _); [congruence|].
  destruct (zip_columns _) as [|v [|w l]]; congruence.
Qed.

(** ** The table stays well-formed *)
Lemma set_row_width cols names rows iv n k r :
  (forall k r, In (k, r) rows -> length r = n) -> In (k, r) (set_row cols names rows iv) -> length r = n.
Proof.
  intros H I. destruct (In_nth_error _ _ I) as [q E]. rewrite nth_set_row in E.
  destruct (Nat.eqb (fst iv) q).
  - destruct (nth_error rows q) as [[k' r']|] eqn:X; [|discriminate]. cbn in E. injection E as <- <-.
    rewrite set_cells_length. apply (H k'). apply nth_error_In with q. exact X.
  - apply (H k). apply nth_error_In with q. exact E.
Qed.
Lemma set_rows_width cols names l rows n :
  (forall k r, In (k, r) rows -> length r = n) ->
  forall k r, In (k, r) (set_rows cols names l rows) -> length r = n.
Proof.
  revert rows; induction l as [|iv l IH]; intros rows H k r I; [eauto|].
  apply (IH (set_row cols names rows iv) (fun k' r' J => set_row_width cols names rows iv n k' r' H J) k r I).
Qed.
Lemma with_columns_wf f names : wf_frame f -> wf_frame (with_columns f names).
Proof.
  intros [WL WC WW WR]. unfold with_columns. constructor; cbn [f_cols f_rows].
  - unfold labels in *. cbn [f_rows]. rewrite map_map. cbn [fst]. exact WL.
  - apply nodup_app; auto.
    + apply NoDup_filter, NoDup_nodup.
    + intros x I J. apply filter_In in I. destruct I as [_ I]. apply negb_true_iff in I.
      apply not_true_iff_false in I. apply I. apply existsb_exists. exists x. split; [exact J | apply String.eqb_refl].
  - rewrite app_length. lia.
  - intros k r I. apply in_map_iff in I. destruct I as [[k' r'] [[= <- <-] I]].
    rewrite !app_length, repeat_length. rewrite (WR k' r' I). reflexivity.
Qed.
Lemma update_wf f data index error : wf_frame f -> wf_frame (fst (update_data f data index error)).
Proof.
  intros W. unfold update_data. destruct (isin f index); [|exact W].
  destruct (Nat.eqb _ _); [|destruct error; exact W].
  destruct data as [|d data]; [exact W|]. unfold loc_set.
  set (names := map fst (d :: data)). pose proof (with_columns_wf f names W) as W'.
  set (f' := with_columns f names) in *.
  assert (G : forall l, wf_frame (mkFrame (f_cols f') (set_rows (f_cols f') names l (f_rows f')))).
  { intros l. destruct W' as [A B C D]. constructor; cbn [f_cols f_rows]; auto.
    - unfold labels. cbn [f_rows]. rewrite set_rows_labels. exact A.
    - apply (set_rows_width _ _ _ _ _ D). }
  destruct (negb _); [exact W'|]. destruct (Nat.eqb _ _); [apply G|].
  destruct (zip_columns _) as [|v [|w l]]; try exact W'. apply G.
Qed.

Lemma init_wf columns f : NoDup columns -> init columns = Ok f -> wf_frame f.
Proof.
  unfold init. destruct columns as [|a [|b l]]; try discriminate. intros N [= <-].
  constructor; cbn [f_cols f_rows]; auto; [constructor | cbn; lia | intros k r []].
Qed.
Lemma after_wf f cs : wf_frame f -> Forall distinct cs -> wf_frame (after f cs).
Proof.
  unfold after. revert f; induction cs as [|c cs IH]; intros f W D; cbn [fold_left]; [exact W|].
  inversion D as [|x y D1 D2]; subst. apply IH; [|exact D2]. destruct c as [d i e|d i e]; cbn [do_call distinct] in *.
  - apply add_wf; auto.
  - apply update_wf; auto.
Qed.
