(** Proofs about synchronous promotions and brackets. *)
From Verif Require Export Sh_async_proofs.
Open Scope nat_scope.

(** ** Brackets as the constructor makes them *)
Record good (eta : nat) (b : bracket) (sz : nat -> nat) : Prop := {
  g_le : b_min b <= b_max b;
  g_keys : map fst (b_sizes b) = seq (b_min b) (S (b_max b) - b_min b);
  g_get : forall r, b_min b <= r <= b_max b -> nget r (b_sizes b) = Some (sz r);
  g_none : forall r, ~ b_min b <= r <= b_max b -> nget r (b_sizes b) = None;
  g_step : forall r, b_min b <= r < b_max b -> sz (S r) = sz r / eta;
  g_pos : forall r, b_min b <= r <= b_max b -> 1 <= sz r;
  g_base : base_size b = sz (b_min b);
  g_rungs : forall r, (exists x, nget r (b_rungs b) = Some x) <-> b_min b <= r <= b_max b
}.

Lemma fill_sizes_keys : forall eta n i size, map fst (fill_sizes eta n i size) = seq i n.
Proof. intros eta n. induction n as [|n IH]; intros i size; cbn [fill_sizes map seq fst]; [auto|]. rewrite IH. auto. Qed.

Lemma good_bracket : forall lg f eta s b, exact lg -> legal f -> 2 <= eta -> make_bracket lg f eta s = Ok b ->
  exists sz, good eta b sz.
Proof.
  intros lg f eta s b X LG E M. exists (fun r => (b_max b + 1) / (b_max b - s + 1) * eta ^ (b_max b - r)).
  pose proof (exact_below _ X) as NA.
  destruct (make_bracket_inv _ _ _ _ _ NA LG E M) as (_ & N & R & C & B1 & B2).
  pose proof (sizes_lemma _ _ _ _ _ X LG E M) as SZ. pose proof (ladder_lemma _ _ _ _ _ NA LG E M) as (L1 & L2 & _).
  assert (P1 : 1 <= (b_max b + 1) / (b_max b - s + 1)) by (apply Nat.div_le_lower_bound; lia).
  assert (PW : forall k, 1 <= eta ^ k) by (intros k; pose proof (Nat.pow_nonzero eta k); lia).
  assert (KE : map fst (b_sizes b) = seq (b_min b) (S (b_max b) - b_min b)).
  { unfold get_config_map in C. destruct (_ <=? _)%Z; [|discriminate]. injection C as <-. rewrite fill_sizes_keys.
    f_equal; lia. }
  assert (G : forall r, b_min b <= r <= b_max b -> nget r (b_sizes b) = Some ((b_max b + 1) / (b_max b - s + 1) * eta ^ (b_max b - r))).
  { intros r RR. rewrite SZ. destruct (Nat.leb_spec s r), (Nat.leb_spec r (b_max b)); cbn [andb]; auto; lia. }
  constructor; auto.
  - intros r RR. rewrite SZ. destruct (Nat.leb_spec s r), (Nat.leb_spec r (b_max b)); cbn [andb]; auto; lia.
  - intros r RR. replace (b_max b - r) with (S (b_max b - S r)) by lia. rewrite Nat.pow_succ_r'.
    rewrite (Nat.mul_comm eta), Nat.mul_assoc, Nat.div_mul by lia. auto.
  - intros r RR. specialize (PW (b_max b - r)). nia.
  - unfold base_size. apply Nat.le_antisymm.
    + apply list_max_le. apply Forall_forall. intros z I. apply in_map_iff in I. destruct I as ([k z'] & <- & I).
      assert (K : In k (seq (b_min b) (S (b_max b) - b_min b))) by (rewrite <- KE; apply in_map_iff; exists (k, z'); auto).
      apply in_seq in K. assert (ND : NoDup (map fst (b_sizes b))) by (rewrite KE; apply seq_NoDup).
      assert (NG : nget k (b_sizes b) = Some z').
      { clear -I ND. induction (b_sizes b) as [|[a z] l IH]; [contradiction|]. simpl in *. inversion ND; subst.
        destruct I as [I|I]; [injection I as -> ->; rewrite Nat.eqb_refl; auto|].
        destruct (Nat.eqb_spec k a) as [->|]; [exfalso; apply H1; apply in_map_iff; exists (a, z'); auto|auto]. }
      rewrite G in NG by lia. injection NG as NG. simpl. rewrite <- NG. apply Nat.mul_le_mono_l. apply Nat.pow_le_mono_r; lia.
    + specialize (G (b_min b)). assert (I : In (b_min b, (b_max b + 1) / (b_max b - s + 1) * eta ^ (b_max b - b_min b)) (b_sizes b))
        by (apply nget_in; apply G; lia).
      assert (ALL : Forall (fun k => k <= List.list_max (map snd (b_sizes b))) (map snd (b_sizes b))) by (apply list_max_le; lia).
      rewrite Forall_forall in ALL. apply ALL. apply in_map_iff. eexists. split; [|exact I]. auto.
Qed.

(** ** The table by position *)
Section Sync.
Context {H : Type}.
Implicit Types (t u w : strial H) (ts : list (strial H)) (x y : row H) (l rows : list (row H)) (tb : table H).
Variable o : options.
Variable argsort : list fl -> list nat.

Lemma nth_firstn : forall A n (a : list A) i, nth_error (firstn n a) i = if i <? n then nth_error a i else None.
Proof.
  intros A. induction n as [|n IH]; intros [|z a] i; simpl; try (destruct i; simpl; auto; destruct (_ <? _); auto; fail).
  destruct i as [|i]; auto. simpl. rewrite IH. reflexivity.
Qed.
Lemma nth_skipn : forall A n (a : list A) i, nth_error (skipn n a) i = nth_error a (n + i).
Proof. intros A. induction n as [|n IH]; intros [|z a] i; simpl; auto. destruct i; auto. Qed.
Lemma slice_spec : forall A (l : list A) s e (x : A), In x (slice s e l) <-> exists i, s <= i < e /\ nth_error l i = Some x.
Proof.
  intros A l s e x. unfold slice. split.
  - intros I. apply In_nth_error in I. destruct I as [i I]. rewrite nth_firstn, nth_skipn in I.
    destruct (Nat.ltb_spec i (e - s)); [|discriminate]. exists (s + i). split; auto. lia.
  - intros (i & IB & N). apply (nth_error_In _ (i - s)). rewrite nth_firstn, nth_skipn.
    destruct (Nat.ltb_spec (i - s) (e - s)); [|lia]. replace (s + (i - s)) with i by lia. auto.
Qed.
Lemma slice_rows : forall rows n s e x, map r_id rows = seq 0 n ->
  (In x (slice s e rows) <-> In x rows /\ s <= r_id x < e).
Proof.
  intros rows n s e x G. rewrite slice_spec. split.
  - intros (i & I & N). assert (r_id x = i) by (eapply label_nth; eauto). subst i. split; auto. eapply nth_error_In; eauto.
  - intros [I B]. apply In_nth_error in I. destruct I as [i N]. assert (r_id x = i) by (eapply label_nth; eauto).
    exists i. subst i. auto.
Qed.
Lemma slice_sorted : forall rows s e, sorted rows -> sorted (slice s e rows).
Proof.
  assert (SK : forall s rows, sorted rows -> sorted (skipn s rows)).
  { induction s as [|s IH]; intros [|x rows] S; simpl; auto. inversion S; subst. auto. }
  assert (FN : forall s rows, sorted rows -> sorted (firstn s rows)).
  { induction s as [|s IH]; intros [|x rows] S; simpl; auto; try (constructor; fail). inversion S as [|? ? S1 F1]; subst.
    constructor; [apply IH; auto|]. rewrite Forall_forall in *. intros y I. apply F1. eapply firstn_in; eauto. }
  intros rows s e S. unfold slice. auto.
Qed.

(** ** The loop over the rungs *)
Definition above l k : nat := length (filter (fun r => k <=? r_rung r) l).
Definition at_rung l k := filter (fun r => r_rung r =? k) l.

Lemma above_step : forall l k, above l k = above l (S k) + length (at_rung l k).
Proof.
  intros l k. unfold above, at_rung. induction l as [|x l IH]; cbn [filter]; auto.
  destruct (Nat.leb_spec k (r_rung x)), (Nat.leb_spec (S k) (r_rung x)), (Nat.eqb_spec (r_rung x) k); cbn [length]; lia.
Qed.
Lemma above_none : forall l k, (forall x, In x l -> r_rung x < k) -> above l k = 0.
Proof.
  intros l k B. unfold above. induction l as [|x l IH]; auto. cbn [filter].
  destruct (Nat.leb_spec k (r_rung x)); [specialize (B x (or_introl eq_refl)); lia|]. apply IH. intros y I. apply B. simpl. auto.
Qed.

Definition ready (eta : nat) (sz : nat -> nat) (mx : nat) l (k : nat) (v : list nat) : Prop :=
  k <> mx /\ sz k <= above l k /\ at_rung l k <> [] /\
  (forall x, In x (at_rung l k) -> is_nan (r_perf x) = false) /\
  exists idx, argsort_perfs argsort (map r_perf (at_rung l k)) = Ok idx /\
    v = pick (map r_id (at_rung l k))
          (slice_to (Z.of_nat (sz k / eta) - (Z.of_nat (sz k) - Z.of_nat (length (at_rung l k))))%Z idx).

Lemma nget_set_promo : forall k v ps k', nget k' (set_promo k v ps) = if k' =? k then Some v else nget k' ps.
Proof.
  induction ps as [|[a z] ps IH]; intros k'; simpl.
  - destruct (k' =? k); auto.
  - destruct (Nat.eqb_spec k a) as [->|N]; simpl.
    + destruct (k' =? a); auto.
    + rewrite IH. destruct (Nat.eqb_spec k' a) as [->|]; auto. destruct (Nat.eqb_spec a k); auto. congruence.
Qed.

Lemma sync_loop_spec : forall eta b sz keys l obj m ps acc, good eta b sz ->
  b_min b + m <= S (b_max b) ->
  sync_loop argsort eta (b_sizes b) (b_max b) (members keys l) obj (rev (seq (b_min b) m)) (above l (b_min b + m)) acc = Ok ps ->
  forall k v, nget k ps = Some v -> nget k acc = Some v \/ b_min b <= k < b_min b + m /\ ready eta sz (b_max b) l k v.
Proof.
  intros eta b sz keys l obj m ps acc G. revert acc. induction m as [|m IH]; intros acc M E k v N.
  - simpl in E. injection E as <-. auto.
  - rewrite seq_S, rev_app_distr in E. cbn [rev app sync_loop] in E. set (r := b_min b + m) in *.
    inv_bind E ms MS. apply members_ok in MS. inv_bind E size SZ. apply ngetitem_ok in SZ.
    rewrite (g_get _ _ _ G) in SZ by lia. injection SZ as <-.
    assert (LM : length ms = length (at_rung l r)) by (rewrite MS, map_length; auto).
    assert (TOT : above l (b_min b + S m) + length ms = above l r).
    { rewrite (above_step l r), LM. replace (b_min b + S m) with (S r) by lia. auto. }
    rewrite TOT in E.
    assert (NEXT : forall acc', sync_loop argsort eta (b_sizes b) (b_max b) (members keys l) obj (rev (seq (b_min b) m)) (above l r) acc' = Ok ps ->
      (forall k' v', nget k' acc' = Some v' -> nget k' acc = Some v' \/ k' = r /\ ready eta sz (b_max b) l k' v') ->
      nget k acc = Some v \/ b_min b <= k < b_min b + S m /\ ready eta sz (b_max b) l k v).
    { intros acc' E' A. destruct (IH acc' ltac:(lia) E' k v N) as [X|[X Y]]; [|right; split; auto; lia].
      destruct (A k v X) as [Z|[-> Z]]; auto. right. split; auto. lia. }
    destruct (Nat.leb_spec (sz r) (above l r)) as [FULL|]; [|eapply NEXT; eauto].
    inv_bind E nn CN. pose proof (count_nan_ok _ _ _ CN) as CNN. destruct (Nat.ltb_spec 0 nn); [injection E as <-; auto|].
    destruct (Nat.eqb_spec r (b_max b)) as [|NM]; [eapply NEXT; eauto|].
    assert (MNE : ms <> []) by (intros Z; rewrite Z in E; discriminate).
    match type of E with match ms with [] => _ | _ :: _ => ?R end = _ => assert (E2 : R = Ok ps) by (destruct ms; [congruence|exact E]) end.
    clear E. rename E2 into E. inv_bind E idx IDX. eapply NEXT; [exact E|].
    intros k' v'. rewrite nget_set_promo. destruct (Nat.eqb_spec k' r) as [->|]; auto. intros V. injection V as <-.
    right. split; auto. split; auto. split; auto.
    assert (S1 : map fst ms = map r_id (at_rung l r)) by (rewrite MS, map_map; auto).
    assert (S2 : map snd ms = map r_perf (at_rung l r)) by (rewrite MS, map_map; auto).
    split.
    + intros Z. rewrite Z in LM. simpl in LM. destruct ms; [congruence|discriminate].
    + split.
      * intros x I. destruct (is_nan (r_perf x)) eqn:Q; auto. exfalso.
        assert (J : In (r_perf x) (filter is_nan (map snd ms))) by (apply filter_In; rewrite S2; split; auto; apply in_map; auto).
        destruct (filter is_nan (map snd ms)); [contradiction|simpl in CNN; lia].
      * exists idx. rewrite <- S2, <- S1, <- LM. auto.
Qed.

Lemma sync_spec : forall eta b sz keys l obj ps, good eta b sz -> (forall x, In x l -> r_rung x <= b_max b) ->
  sync_promotions argsort eta b (members keys l) obj = Ok ps ->
  map fst ps = map fst (b_sizes b) /\
  forall k v, nget k ps = Some v -> v <> [] -> b_min b <= k < b_max b /\ ready eta sz (b_max b) l k v.
Proof.
  intros eta b sz keys l obj ps G B E. unfold sync_promotions in E. rewrite (g_keys _ _ _ G) in E.
  pose proof (g_le _ _ _ G) as LE. split.
  - assert (K : forall rungs total acc ps, sync_loop argsort eta (b_sizes b) (b_max b) (members keys l) obj rungs total acc = Ok ps ->
       (forall r, In r rungs -> In r (map fst acc)) -> map fst ps = map fst acc).
    { clear. induction rungs as [|r rest IH]; intros total acc ps E I; cbn [sync_loop] in E; [congruence|].
      inv_bind E ms M. inv_bind E size SZ.
      assert (NX : forall acc', map fst acc' = map fst acc ->
        sync_loop argsort eta (b_sizes b) (b_max b) (members keys l) obj rest (total + length ms) acc' = Ok ps -> map fst ps = map fst acc).
      { intros acc' A E'. rewrite <- A. eapply IH; eauto. rewrite A. intros r' R'. apply I. simpl. auto. }
      destruct (_ <=? _); [|eapply NX; eauto]. inv_bind E nn CN. destruct (_ <? _); [congruence|].
      destruct (_ =? _); [eapply NX; eauto|]. destruct ms as [|m0 ms0]; [discriminate|]. inv_bind E idx IDX.
      eapply NX; [|exact E]. specialize (I r (or_introl eq_refl)). clear -I.
      induction acc as [|[a z] acc IH]; simpl in *; [contradiction|]. destruct (Nat.eqb_spec r a) as [->|]; auto.
      simpl. f_equal. apply IH. destruct I; [congruence|auto]. }
    rewrite (K _ _ _ _ E); [rewrite map_map; reflexivity|].
    intros r R. apply in_rev in R. rewrite map_map. cbn [fst]. rewrite <- (g_keys _ _ _ G) in R. apply in_map_iff in R.
    destruct R as (e & <- & R). apply in_map_iff. exists e. auto.
  - intros k v N NE.
    assert (Z0 : above l (b_min b + (S (b_max b) - b_min b)) = 0) by (apply above_none; intros x I; specialize (B x I); lia).
    assert (LE2 : b_min b + (S (b_max b) - b_min b) <= S (b_max b)) by lia.
    rewrite <- Z0 in E. destruct (sync_loop_spec _ _ _ _ _ _ _ _ _ G LE2 E k v N) as [X|[X Y]].
    + exfalso. apply NE. clear -X. induction (b_sizes b) as [|e l IH]; simpl in X; [discriminate|].
      destruct (k =? fst e); [congruence|auto].
    + split; auto. destruct Y as [NM _]. lia.
Qed.
Lemma nget_nodup : forall A k (v : A) (a : list (nat * A)), NoDup (map fst a) -> In (k, v) a -> nget k a = Some v.
Proof.
  intros A k v a ND I. induction a as [|[q z] a IH]; [contradiction|]. simpl in *. inversion ND; subst.
  destruct I as [I|I]; [injection I as -> ->; rewrite Nat.eqb_refl; auto|].
  destruct (Nat.eqb_spec k q) as [->|]; [exfalso; apply H2; apply in_map_iff; exists (q, v); auto|auto].
Qed.
Lemma some_promotion_spec : forall eta b sz keys l obj ps, good eta b sz -> (forall x, In x l -> r_rung x <= b_max b) ->
  sync_promotions argsort eta b (members keys l) obj = Ok ps -> some_promotion ps = true ->
  exists k v, b_min b <= k < b_max b /\ nget k ps = Some v /\ v <> [].
Proof.
  intros eta b sz keys l obj ps G B E S. destruct (sync_spec _ _ _ _ _ _ _ G B E) as [K P].
  unfold some_promotion in S. apply existsb_exists in S. destruct S as ([k v] & I & V). cbn [snd] in V.
  assert (ND : NoDup (map fst ps)) by (rewrite K, (g_keys _ _ _ G); apply seq_NoDup).
  pose proof (nget_nodup _ _ _ _ ND I) as N. assert (NE : v <> []) by (intros ->; discriminate).
  exists k, v. split; [apply (P k v N NE)|auto].
Qed.

(** ** Blocks of configurations *)
Variable bs : list bracket.
Variable eta : nat.
Hypothesis all_good : forall b, In b bs -> exists sz, good eta b sz.

Lemma nth_bracket_in : forall d n b s, nth_bracket bs d n b s -> In b bs.
Proof. intros d n b s N. destruct N; eapply nth_error_In; eauto. Qed.
Lemma nth_bracket_index : forall d n b s, nth_bracket bs d n b s -> nth_error bs (n mod length bs) = Some b.
Proof.
  intros d n b s N. destruct N as [b N|]; auto. rewrite Nat.mod_0_l; auto. destruct bs; [discriminate|simpl; lia].
Qed.
Lemma width_base : forall b, In b bs -> width b (base_size b) /\ 1 <= base_size b.
Proof.
  intros b I. destruct (all_good b I) as [sz G]. pose proof (g_le _ _ _ G). unfold width. rewrite (g_get _ _ _ G), (g_base _ _ _ G) by lia.
  split; auto. apply (g_pos _ _ _ G). lia.
Qed.
Lemma width_fun : forall b (w : nat), In b bs -> width b w -> w = base_size b.
Proof. intros b w I W. destruct (width_base b I) as [V _]. unfold width in *. congruence. Qed.
Lemma nth_bracket_fun : forall d n b s, nth_bracket bs d n b s -> forall b' s', nth_bracket bs d n b' s' -> b' = b /\ s' = s.
Proof.
  intros d n b s N. induction N as [b NE|n b s w b1 N IH W NE]; intros b' s' N'; inversion N'; subst.
  - split; congruence.
  - destruct (IH _ _ H1) as [-> ->]. split; [congruence|]. unfold width in *. congruence.
Qed.
Lemma nth_bracket_order : forall d n b s m b' s', nth_bracket bs d n b s -> nth_bracket bs d m b' s' -> n < m ->
  s + base_size b <= s'.
Proof.
  intros d n b s m b' s' N M. revert n b s N. induction M as [b1 NE|m b1 s1 w b2 M IH W NE]; intros n b s N L; [lia|].
  rewrite (width_fun b1 w (nth_bracket_in _ _ _ _ M) W). destruct (Nat.eq_dec n m) as [->|].
  - destruct (nth_bracket_fun _ _ _ _ M _ _ N) as [-> ->]. lia.
  - specialize (IH n b s N). lia.
Qed.
Lemma nth_bracket_start : forall d n b s, nth_bracket bs d n b s -> d <= s.
Proof. intros d n b s N. induction N; lia. Qed.
Lemma same_bracket : forall d n b s m b' s' c, nth_bracket bs d n b s -> nth_bracket bs d m b' s' ->
  s <= c < s + base_size b -> s' <= c < s' + base_size b' -> n = m /\ b = b' /\ s = s'.
Proof.
  intros d n b s m b' s' c N M A B. destruct (Nat.lt_trichotomy n m) as [L|[->|L]].
  - pose proof (nth_bracket_order _ _ _ _ _ _ _ N M L). lia.
  - destruct (nth_bracket_fun _ _ _ _ N _ _ M) as [-> ->]. auto.
  - pose proof (nth_bracket_order _ _ _ _ _ _ _ M N L). lia.
Qed.

Lemma find_hb_spec : forall fuel obj rows n s e b cu, let d := start_index o in
  (exists b1, nth_bracket bs d n b1 s /\ e = s + base_size b1) -> (s <= length rows \/ n = 0) ->
  find_hb_bracket argsort fuel eta o bs obj rows (n mod length bs) s e = Ok (b, cu) ->
  exists m s', nth_bracket bs d m b s' /\ cu = slice s' (s' + base_size b) rows /\ (s' <= length rows \/ m = 0) /\
    (length rows < s' + base_size b \/
     s' + base_size b <= length rows /\ exists ps, some_promotion ps = true /\
       sync_promotions argsort eta b (members (map fst (b_rungs b)) (drop_default o cu)) obj = Ok ps).
Proof.
  induction fuel as [|fuel IH]; intros obj rows n s e b cu d (b1 & N & ->) SL E; cbn [find_hb_bracket] in E; [discriminate|].
  pose proof (nth_bracket_index _ _ _ _ N) as NI. rewrite NI in E.
  destruct (Nat.leb_spec (s + base_size b1) (length rows)) as [FULL|PART].
  - pose proof (nth_bracket_in _ _ _ _ N) as IB. destruct (width_base b1 IB) as [WB _].
    assert (LB : length bs <> 0) by (destruct bs; [contradiction|discriminate]).
    assert (IDX : (n mod length bs + 1) mod length bs = S n mod length bs).
    { rewrite Nat.add_mod_idemp_l by auto. f_equal. lia. }
    rewrite IDX in E.
    assert (NX : match nth_error bs (S n mod length bs) with
        | Some b' => find_hb_bracket argsort fuel eta o bs obj rows (S n mod length bs) (s + base_size b1) (s + base_size b1 + base_size b')
        | None => Err IndexError end = Ok (b, cu) ->
        exists m s', nth_bracket bs d m b s' /\ cu = slice s' (s' + base_size b) rows /\ (s' <= length rows \/ m = 0) /\
    (length rows < s' + base_size b \/
     s' + base_size b <= length rows /\ exists ps, some_promotion ps = true /\
       sync_promotions argsort eta b (members (map fst (b_rungs b)) (drop_default o cu)) obj = Ok ps)).
    { destruct (nth_error bs (S n mod length bs)) as [b2|] eqn:B2; [|discriminate]. intros E'.
      eapply (IH obj rows (S n)); eauto. exists b2. split; auto. econstructor; eauto. }
    destruct (_ <? _); [|auto]. inv_bind E ps PS. destruct (some_promotion ps) eqn:SP; [|auto].
    injection E as <- <-. exists n, s. split; auto. split; auto. split; auto. right. split; auto. exists ps. auto.
  - injection E as <- <-. exists n, s. auto.
Qed.
End Sync.
