(** Proofs about the table of observations. *)
From Verif Require Export Mf_spec.
Local Notation length := List.length.
Open Scope Z_scope.

Lemma key_eqb_eq a b : key_eqb a b = true <-> a = b.
Proof.
  unfold key_eqb. destruct a as [x y], b as [z w]. cbn [fst snd].
  rewrite andb_true_iff, !Z.eqb_eq. split; [intros [-> ->] | intros [= -> ->]]; auto.
Qed.
Lemma key_eqb_refl a : key_eqb a a = true.
Proof. apply key_eqb_eq. reflexivity. Qed.
Lemma key_eqb_neq a b : key_eqb a b = false <-> a <> b.
Proof.
  destruct (key_eqb a b) eqn:E.
  - apply key_eqb_eq in E. split; congruence.
  - split; [intros _ H; apply key_eqb_eq in H; congruence | reflexivity].
Qed.
Lemma key_eq_dec (a b : key) : {a = b} + {a <> b}.
Proof. decide equality; apply Z.eq_dec. Qed.

Definition find_in (l : list (key * list pyval)) (k : key) : option (list pyval) :=
  option_map snd (find (fun r => key_eqb (fst r) k) l).

Lemma find_in_in l k r : NoDup (map fst l) -> (find_in l k = Some r <-> In (k, r) l).
Proof.
  unfold find_in. induction l as [|[k' r'] l IH]; cbn [map fst find]; intros N.
  - split; [discriminate | intros []].
  - inversion N as [|a b NI N']; subst. destruct (key_eqb k' k) eqn:E; cbn [fst snd option_map].
    + apply key_eqb_eq in E. subst k'. split.
      * intros [= ->]. left. reflexivity.
      * intros [[= ->] | H]; [reflexivity|]. exfalso. apply NI. apply in_map_iff. exists (k, r). auto.
    + rewrite IH by exact N'. split; [right; auto | intros [[= -> ->] | H]; auto].
      rewrite key_eqb_refl in E. discriminate.
Qed.
Lemma find_in_none l k : find_in l k = None <-> ~ In k (map fst l).
Proof.
  unfold find_in. induction l as [|[k' r'] l IH]; cbn [map fst find].
  - split; auto.
  - destruct (key_eqb k' k) eqn:E; cbn [option_map].
    + apply key_eqb_eq in E. subst. split; [discriminate | intros H; exfalso; apply H; left; auto].
    + apply key_eqb_neq in E. rewrite IH. cbn [In]. tauto.
Qed.
Lemma find_in_app l m k : find_in (l ++ m) k = match find_in l k with Some r => Some r | None => find_in m k end.
Proof.
  unfold find_in. induction l as [|[k' r'] l IH]; cbn [app find fst]; [reflexivity|].
  destruct (key_eqb k' k); [reflexivity | exact IH].
Qed.
Lemma row_at_find f k : row_at f k = find_in (f_rows f) k. Proof. reflexivity. Qed.

(** ** Adding *)
Lemma existsb_map_true {A} (p : A -> bool) l : existsb (fun b => b) (map p l) = existsb p l.
Proof. induction l as [|x l IH]; cbn; [|rewrite IH]; reflexivity. Qed.

Lemma conflict_iff f index :
  existsb (fun r : key * list pyval => existsb (key_eqb (fst r)) index) (f_rows f) = true
  <-> exists k, In k index /\ In k (labels f).
Proof.
  rewrite existsb_exists. unfold labels. split.
  - intros [[k r] [I H]]. apply existsb_exists in H. destruct H as [k' [I' E]].
    apply key_eqb_eq in E. cbn [fst] in E. subst k'. exists k. split; [exact I'|].
    apply in_map_iff. exists (k, r). auto.
  - intros [k [I J]]. apply in_map_iff in J. destruct J as [[k' r] [E J]]. cbn in E. subst k'.
    exists (k, r). split; [exact J|]. apply existsb_exists. exists k. split; [exact I|]. apply key_eqb_refl.
Qed.

Lemma isin_ok f index : index <> [] ->
  isin f index = Ok (map (fun r => existsb (key_eqb (fst r)) index) (f_rows f)).
Proof. destruct index; [congruence | reflexivity]. Qed.

Lemma add_conflict f data index error k :
  In k index -> In k (labels f) ->
  add_data f data index error = (f, if error then Err ValueError else Ok tt).
Proof.
  intros I J. unfold add_data. rewrite isin_ok by (intros ->; destruct I).
  rewrite existsb_map_true.
  replace (existsb _ (f_rows f)) with true; [reflexivity|].
  symmetry. apply conflict_iff. eauto.
Qed.

Lemma list_max_const (l : list (list pyval)) n : l <> [] -> (forall r, In r l -> length r = n) ->
  List.list_max (map (@List.length pyval) l) = n.
Proof.
  induction l as [|r l IH]; [congruence|]. intros _ H. cbn [map List.list_max fold_right].
  change (fold_right Init.Nat.max 0%nat (map (@List.length pyval) l)) with (List.list_max (map (@List.length pyval) l)).
  rewrite (H r (or_introl eq_refl)). destruct l as [|r' l].
  - cbn. lia.
  - rewrite IH; [lia | discriminate | intros; apply H; right; auto].
Qed.

Lemma pad_id n (r : list pyval) : length r = n -> pad n r = r.
Proof. intros <-. unfold pad. rewrite Nat.sub_diag. apply app_nil_r. Qed.

Lemma map_fst_combine {A B} (l : list A) (m : list B) : length l = length m -> map fst (combine l m) = l.
Proof.
  revert m; induction l as [|a l IH]; destruct m; cbn; intros H; try discriminate; [reflexivity|].
  injection H as H. f_equal. apply IH. exact H.
Qed.

Lemma find_in_combine index (data : list (list pyval)) n k :
  NoDup index -> length data = length index -> nth_error index n = Some k ->
  find_in (combine index data) k = nth_error data n.
Proof.
  revert data n. induction index as [|k' index IH]; intros data n N L E.
  - destruct n; discriminate.
  - destruct data as [|d data]; [discriminate|]. injection L as L.
    inversion N as [|a b NI N']; subst. unfold find_in. cbn [combine find fst].
    destruct n as [|n]; cbn [nth_error] in *.
    + injection E as ->. rewrite key_eqb_refl. reflexivity.
    + destruct (key_eqb k' k) eqn:X.
      * apply key_eqb_eq in X. subst k'. exfalso. apply NI. apply nth_error_In with n. exact E.
      * apply (IH data n N' L E).
Qed.

Lemma combine_in_r {A B} (l : list A) (m : list B) a b : In (a, b) (combine l m) -> In b m.
Proof. intros H. apply in_combine_r in H. exact H. Qed.

Lemma nodup_app {A} (l m : list A) : NoDup l -> NoDup m -> (forall x, In x m -> ~ In x l) -> NoDup (l ++ m).
Proof.
  induction l as [|a l IH]; cbn; intros N M D; [exact M|].
  inversion N; subst. constructor.
  - rewrite in_app_iff. intros [H|H]; [auto|]. apply (D a H). left. reflexivity.
  - apply IH; auto. intros x I J. apply (D x I). right. exact J.
Qed.

Lemma data_frame_labels cols data index rows :
  data_frame cols data index = Ok rows -> map fst rows = index.
Proof.
  unfold data_frame. destruct data as [|d data].
  - intros [= <-]. rewrite map_map. cbn [fst]. apply map_id.
  - destruct (_ && _) eqn:E; [|discriminate]. intros [= <-].
    apply andb_true_iff in E. destruct E as [_ E]. apply Nat.eqb_eq in E.
    apply map_fst_combine. cbn [map length] in *. rewrite map_length. lia.
Qed.

Lemma list_max_in (l : list (list pyval)) r : In r l -> (length r <= List.list_max (map (@List.length pyval) l))%nat.
Proof.
  intros I. pose proof (proj1 (List.list_max_le (map (@List.length pyval) l) _) (le_n _)) as H.
  rewrite Forall_forall in H. apply H. apply in_map. exact I.
Qed.

Lemma data_frame_width cols data index rows k r :
  data_frame cols data index = Ok rows -> In (k, r) rows -> length r = length cols.
Proof.
  unfold data_frame. destruct data as [|d data].
  - intros [= <-] I. apply in_map_iff in I. destruct I as [k' [[= <- <-] _]]. apply repeat_length.
  - destruct (_ && _) eqn:E; [|discriminate]. intros [= <-] I.
    apply andb_true_iff in E. destruct E as [E _]. apply Nat.eqb_eq in E.
    apply combine_in_r in I. apply (in_map_iff (pad (length cols)) (d :: data)) in I.
    destruct I as [r' [<- I]]. apply list_max_in in I. unfold pad. rewrite app_length, repeat_length. lia.
Qed.

Lemma add_success f data index error : wf_frame f -> fits f data index ->
  (forall k, In k index -> ~ In k (labels f)) ->
  exists f', add_data f data index error = (f', Ok tt) /\
    f_cols f' = f_cols f /\ labels f' = labels f ++ index /\
    (forall n k, nth_error index n = Some k -> row_at f' k = nth_error data n) /\
    (forall k, ~ In k index -> row_at f' k = row_at f k).
Proof.
  intros W (NE & ND & L & SH) D. unfold add_data. rewrite isin_ok by exact NE.
  rewrite existsb_map_true. destruct (existsb _ (f_rows f)) eqn:X.
  { apply conflict_iff in X. destruct X as [k [I J]]. exfalso. apply (D k I J). }
  cbn [negb]. unfold data_frame. destruct data as [|d data].
  { destruct index; [congruence | discriminate]. }
  rewrite list_max_const with (n := length (f_cols f)); [|discriminate|exact SH].
  rewrite L, !Nat.eqb_refl. cbn [andb].
  assert (M : map (pad (length (f_cols f))) (d :: data) = d :: data).
  { rewrite <- (map_id (d :: data)) at 2. apply map_ext_in. intros r I. apply pad_id. auto. }
  rewrite M. eexists. split; [reflexivity|]. cbn [f_cols f_rows].
  assert (LB : map fst (f_rows f ++ combine index (d :: data)) = labels f ++ index).
  { rewrite map_app. unfold labels. f_equal. apply map_fst_combine. lia. }
  repeat split; auto.
  - intros n k E. unfold row_at. cbn [f_rows].
    change (find_in (f_rows f ++ combine index (d :: data)) k = nth_error (d :: data) n).
    rewrite find_in_app. assert (I : In k index) by (apply nth_error_In with n; exact E).
    rewrite (proj2 (find_in_none (f_rows f) k) (D k I)). apply find_in_combine; auto.
  - intros k I. change (find_in (f_rows f ++ combine index (d :: data)) k = find_in (f_rows f) k).
    rewrite find_in_app. destruct (find_in (f_rows f) k); [reflexivity|].
    apply find_in_none. rewrite map_fst_combine; auto.
Qed.

Lemma add_failure f data index error f' e : add_data f data index error = (f', Err e) -> f' = f.
Proof.
  unfold add_data. destruct (isin f index); [|congruence].
  destruct (negb _); [|destruct error; congruence].
  destruct (data_frame _ _ _); congruence.
Qed.

Lemma add_wf f data index error : wf_frame f -> NoDup index -> wf_frame (fst (add_data f data index error)).
Proof.
  intros W ND. unfold add_data. destruct (isin f index) eqn:E; [|exact W].
  destruct (negb _) eqn:X; [|destruct error; exact W].
  destruct (data_frame _ _ _) as [rows|] eqn:DF; [|exact W]. cbn [fst].
  destruct index as [|k0 index]; [discriminate|]. rewrite isin_ok in E by discriminate.
  injection E as <-. rewrite existsb_map_true in X. apply negb_true_iff in X.
  destruct W as [WL WC WW WR]. constructor; cbn [f_cols f_rows]; auto.
  - unfold labels in *. cbn [f_rows]. rewrite map_app, (data_frame_labels _ _ _ _ DF).
    apply nodup_app; auto. intros k I J.
    apply not_true_iff_false in X. apply X. apply (proj2 (conflict_iff f (k0 :: index))). exists k. auto.
  - intros k r I. apply in_app_iff in I. destruct I as [I|I]; [eauto|].
    apply (data_frame_width _ _ _ _ _ _ DF I).
Qed.

(** ** The next id *)
Lemma fold_max_ge l x : x <= fold_left Z.max l x /\ forall y, In y l -> y <= fold_left Z.max l x.
Proof.
  revert x; induction l as [|z l IH]; intros x; cbn [fold_left].
  - split; [lia | intros y []].
  - destruct (IH (Z.max x z)) as [A B]. split; [lia|]. intros y [<- | I]; [lia | auto].
Qed.
Lemma next_of_list (l : list Z) x : In x l ->
  x < match l with [] => 0 | i :: l' => fold_left Z.max l' i + 1 end.
Proof.
  destruct l as [|i l]; [intros []|]. intros I. destruct (fold_max_ge l i) as [A B].
  destruct I as [E | I]; [lia | specialize (B _ I); lia].
Qed.
Lemma next_id_fresh f k : In k (labels f) -> fst k < next_config_id f.
Proof.
  intros J. unfold next_config_id. apply next_of_list.
  unfold labels in J. apply in_map with (f := fst) in J. rewrite map_map in J. exact J.
Qed.
