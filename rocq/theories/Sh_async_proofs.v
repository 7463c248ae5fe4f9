(** Proofs about asynchronous promotions. *)
From Verif Require Export Sh_table_proofs.
Open Scope nat_scope.

Section Async.
Context {H : Type}.
Implicit Types (t u w : strial H) (ts : list (strial H)) (x y : row H) (l rows : list (row H)) (tb : table H).
Variable o : options.

(** ** Rows with a performance are the waiting configurations *)
Lemma row_waits : forall ts lo hi tb x v, observe o lo hi ts = Ok tb -> In x (t_rows tb) ->
  r_perf x = PNum v -> v <> FNaN -> waits o ts (r_rung x) (r_id x) v.
Proof.
  intros ts lo hi tb x v E I P N. destruct (observe_spec _ _ _ _ _ E) as (_ & _ & B).
  destruct (B x I) as [[(t & T1 & T2 & T3 & T4 & _) TT]|(X & _)]; [|rewrite X in P; congruence].
  split.
  - exists t. split; auto. split; auto. unfold ranks. rewrite P in T4. unfold get_loss in T4. unfold finished in T3.
    destruct (st_out t); [contradiction|left; congruence|right]. destruct (o_ignore_errors o); [discriminate|].
    destruct (o_loss_on_error o); [|discriminate]. injection T4 as ->. auto.
  - split; auto. intros u U D. destruct (TT u U D). auto.
Qed.
Lemma waits_row : forall ts lo hi tb r c v, wf ts -> observe o lo hi ts = Ok tb -> waits o ts r c v ->
  exists x, In x (t_rows tb) /\ r_id x = c /\ r_rung x = r /\ r_perf x = PNum v.
Proof.
  intros ts lo hi tb r c v W E ((t & T & ID & RK) & N & TOP). destruct (observe_spec _ _ _ _ _ E) as (_ & A & B).
  destruct (A t T) as (x & X & D). rewrite ID in D. simpl in D. exists x. split; auto. split; auto.
  destruct (B x X) as [[(u & U1 & U2 & U3 & U4 & _) UU]|(_ & (u & U1 & U2 & U3) & _)].
  - destruct (TOP u U1) as [L _]; [rewrite U2; auto|]. destruct (UU t T) as [_ L2]; [rewrite ID; auto|].
    rewrite U2 in L. rewrite ID in L2. simpl in *. assert (RR : r_rung x = r) by lia. split; auto.
    assert (u = t) by (eapply same_id; eauto; [apply W|congruence]). subst u.
    unfold get_loss in U4. destruct RK as [RK|(RK & IG & LE)]; rewrite RK in U4; [congruence|].
    rewrite IG, LE in U4. congruence.
  - exfalso. destruct (TOP u U1) as [_ F]; [rewrite U2; auto|]. auto.
Qed.
Lemma no_error_rows : forall ts lo hi tb x, o_ignore_errors o = false -> observe o lo hi ts = Ok tb ->
  In x (t_rows tb) -> is_err (r_perf x) = false.
Proof.
  intros ts lo hi tb x IG E I. destruct (observe_spec _ _ _ _ _ E) as (_ & _ & B).
  destruct (B x I) as [[(t & _ & _ & T3 & T4 & _) _]|(X & _)]; [|rewrite X; auto].
  unfold get_loss in T4. rewrite IG in T4. destruct (r_perf x); auto. unfold finished in T3.
  destruct (st_out t); try contradiction; try discriminate. destruct (o_loss_on_error o); discriminate.
Qed.

Variable argsort : list fl -> list nat.

(** ** The loop *)
Lemma async_get : forall eta mem rungs ps k v, async_loop argsort eta mem rungs = Ok ps -> nget k ps = Some v ->
  In k rungs /\ exists ms idx, mem k = Ok ms /\ argsort_perfs argsort (map snd ms) = Ok idx /\
    v = firstn (length ms / eta) (pick (map fst ms) idx).
Proof.
  intros eta mem rungs. induction rungs as [|a rest IH]; intros ps k v E N; cbn [async_loop] in E.
  - injection E as <-. discriminate.
  - inv_bind E ms M. inv_bind E idx J. inv_bind E qs QS. injection E as <-. simpl in N.
    destruct (Nat.eqb_spec k a) as [->|].
    + injection N as <-. split; [simpl; auto|]. exists ms, idx. auto.
    + destruct (IH _ _ _ QS N) as (A & B). split; [simpl; auto|auto].
Qed.
Lemma async_defined : forall eta mem rungs ps k, async_loop argsort eta mem rungs = Ok ps -> In k rungs ->
  exists v, nget k ps = Some v.
Proof.
  intros eta mem rungs. induction rungs as [|a rest IH]; intros ps k E I; [contradiction|]; cbn [async_loop] in E.
  inv_bind E ms M. inv_bind E idx J. inv_bind E qs QS. injection E as <-. simpl.
  destruct (Nat.eqb_spec k a); [eauto|]. destruct I as [->|I]; [congruence|]. eapply IH; eauto.
Qed.

Definition value (p : perf) : fl := match p with PNum x => x | PErr => FNaN end.
Lemma argsort_perfs_ok : forall (ps : list perf) idx, argsort_perfs argsort ps = Ok idx -> existsb is_err ps = false ->
  idx = argsort (map value ps).
Proof.
  intros ps idx E N. unfold argsort_perfs in E. destruct (forallb is_err ps) eqn:F.
  - destruct ps as [|p ps]; [injection E as <-; auto|]. simpl in *. destruct (is_err p); discriminate.
  - rewrite N in E. injection E as <-. reflexivity.
Qed.
Lemma pick_length : forall ids idx, (forall i, In i idx -> i < length ids) -> length (pick ids idx) = length idx.
Proof.
  intros ids idx. induction idx as [|i idx IH]; intros B; simpl; auto.
  destruct (nth_error ids i) eqn:N.
  - simpl. f_equal. apply IH. intros j J. apply B. simpl. auto.
  - exfalso. apply nth_error_None in N. specialize (B i). simpl in B. assert (i < length ids) by auto. lia.
Qed.

Lemma head_sorted : forall (vals : list fl) ids c v, sorts argsort -> ~ In FNaN vals -> length ids = length vals ->
  pick ids (argsort vals) = c :: v ->
  exists a (x : fl), nth_error ids a = Some c /\ nth_error vals a = Some x /\
    forall y : fl, In y vals -> fl_ltb y x = false.
Proof.
  intros vals ids c v SO N L P. destruct (SO vals N) as [PE LT].
  destruct (argsort vals) as [|a idx] eqn:AS; [discriminate|].
  assert (AL : a < length vals).
  { assert (In a (seq 0 (length vals))) by (eapply Permutation_in; [exact PE|simpl; auto]). apply in_seq in H0. lia. }
  simpl in P. destruct (nth_error ids a) as [c'|] eqn:NA; [|apply nth_error_None in NA; lia].
  injection P as -> _. destruct (nth_error vals a) as [x|] eqn:NX; [|apply nth_error_None in NX; lia].
  exists a, x. split; auto. split; auto. intros y Y. apply In_nth_error in Y. destruct Y as [b Y].
  assert (IB : In b (a :: idx)).
  { eapply Permutation_in; [apply Permutation_sym; exact PE|]. apply in_seq.
    assert (b < length vals) by (apply nth_error_Some; congruence). lia. }
  apply In_nth_error in IB. destruct IB as [j J]. destruct j as [|j].
  - simpl in J. injection J as <-. rewrite NX in Y. injection Y as <-. destruct (fl_ltb x x) eqn:Z; auto.
    exfalso. destruct x; simpl in Z; try discriminate. apply Z.ltb_lt in Z. lia.
  - eapply (LT 0 (S j) a b x y); eauto; simpl; auto; lia.
Qed.

(** members of a rung in terms of rows *)
Lemma members_ok : forall keys l k ms, members keys l k = Ok ms ->
  ms = map (fun r => (r_id r, r_perf r)) (filter (fun r => r_rung r =? k) l).
Proof. intros keys l k ms E. unfold members in E. destruct (_ || _); congruence. Qed.

Lemma sorted_filter : forall (p : row H -> bool) l, sorted l -> sorted (filter p l).
Proof.
  intros p l S. induction S as [|x l S IH F]; simpl; [constructor|]. destruct (p x); auto. constructor; auto.
  rewrite Forall_forall in *. intros y I. apply filter_In in I. apply F. tauto.
Qed.
Lemma sorted_nodup : forall l, sorted l -> NoDup (map r_id l).
Proof.
  intros l S. induction S as [|x l S IH F]; simpl; constructor; auto.
  intros I. apply in_map_iff in I. destruct I as (y & E & I). rewrite Forall_forall in F.
  specialize (F y I). simpl in F. lia.
Qed.
Lemma drop_default_spec : forall l x, In x (drop_default o l) <-> In x l /\ takes_part o (r_id x).
Proof.
  intros l x. unfold drop_default, takes_part. destruct (o_default_first o && o_default_at_target o).
  - rewrite filter_In. destruct (Nat.eqb_spec (r_id x) 0); simpl; intuition discriminate.
  - intuition discriminate.
Qed.
Lemma drop_default_sorted : forall l, sorted l -> sorted (drop_default o l).
Proof. intros l S. unfold drop_default. destruct (_ && _); auto. apply sorted_filter. auto. Qed.

Definition taking rows k := filter (fun r => r_rung r =? k) (drop_default o (dropna rows)).

Lemma taking_spec : forall ts lo hi tb k, wf ts -> o_ignore_errors o = false -> observe o lo hi ts = Ok tb ->
  NoDup (map r_id (taking (t_rows tb) k)) /\
  forall c v, (exists x, In x (taking (t_rows tb) k) /\ r_id x = c /\ r_perf x = PNum v) <->
    takes_part o c /\ waits o ts k c v.
Proof.
  intros ts lo hi tb k W IG E. destruct (observe_spec _ _ _ _ _ E) as (So & _ & _). split.
  - apply sorted_nodup. apply sorted_filter, drop_default_sorted, sorted_filter. auto.
  - intros c v. split.
    + intros (x & I & <- & P). unfold taking in I. apply filter_In in I. destruct I as [I K]. apply Nat.eqb_eq in K.
      apply drop_default_spec in I. destruct I as [I TP]. apply filter_In in I. destruct I as [I NN].
      split; auto. rewrite <- K. eapply row_waits; eauto. intros ->. rewrite P in NN. discriminate.
    + intros [TP WA]. destruct (waits_row _ _ _ _ _ _ _ W E WA) as (x & X & D & R & P). exists x.
      split; auto. unfold taking. apply filter_In. rewrite R, Nat.eqb_refl. split; auto. apply drop_default_spec.
      rewrite D. split; auto. apply filter_In. split; auto. rewrite P. destruct WA as (_ & NN & _).
      destruct v; auto.
Qed.

Lemma nodup_firstn : forall A n (a : list A), NoDup a -> NoDup (firstn n a).
Proof.
  intros A n a. revert n. induction a as [|z a IH]; intros [|n] ND; simpl; try constructor; inversion ND; subst; auto.
  intros I. apply firstn_in in I. auto.
Qed.

(** ** What is promoted *)
Lemma async_candidates : forall ts lo hi tb eta mx keys ps k v, sorts argsort -> 1 <= eta -> wf ts ->
  o_ignore_errors o = false -> observe o lo hi ts = Ok tb ->
  async_promotions argsort eta mx (members keys (drop_default o (dropna (t_rows tb)))) = Ok ps ->
  nget k ps = Some v ->
  match v with
  | [] => ~ crowd o ts eta k
  | c :: _ => crowd o ts eta k /\ exists x : fl, takes_part o c /\ waits o ts k c x /\
      forall c' (x' : fl), takes_part o c' -> waits o ts k c' x' -> fl_ltb x' x = false
  end.
Proof.
  intros ts lo hi tb eta mx keys ps k v SO E1 W IG E A N.
  destruct (async_get _ _ _ _ _ _ A N) as (_ & ms & idx & M & AI & V). apply members_ok in M.
  fold (taking (t_rows tb) k) in M. destruct (taking_spec _ _ _ _ k W IG E) as [ND TS].
  assert (ROW : forall x, In x (taking (t_rows tb) k) -> In x (t_rows tb) /\ is_nan (r_perf x) = false).
  { intros x I. unfold taking in I. apply filter_In in I. destruct I as [I _]. apply drop_default_spec in I. destruct I as [I _].
    apply filter_In in I. destruct I as [I NN]. split; auto. destruct (is_nan (r_perf x)); auto. }
  assert (NUM : forall x, In x (taking (t_rows tb) k) -> exists z, r_perf x = PNum z /\ z <> FNaN).
  { intros x I. destruct (ROW x I) as [I' NN]. pose proof (no_error_rows _ _ _ _ _ IG E I') as NE.
    destruct (r_perf x) as [z|]; [|discriminate]. exists z. split; auto. intros ->. discriminate. }
  assert (S2 : map snd ms = map r_perf (taking (t_rows tb) k)) by (rewrite M, map_map; auto).
  assert (S1 : map fst ms = map r_id (taking (t_rows tb) k)) by (rewrite M, map_map; auto).
  assert (LM : length ms = length (taking (t_rows tb) k)) by (rewrite M, map_length; auto).
  assert (NE : existsb is_err (map snd ms) = false).
  { rewrite S2. destruct (existsb is_err _) eqn:X; auto. apply existsb_exists in X. destruct X as (p & I & P).
    apply in_map_iff in I. destruct I as (x & <- & I). destruct (NUM x I) as (z & Z & _). rewrite Z in P. discriminate. }
  pose proof (argsort_perfs_ok _ _ AI NE) as IDX.
  assert (NN : ~ In FNaN (map value (map snd ms))).
  { rewrite S2, map_map. intros I. apply in_map_iff in I. destruct I as (x & V' & I). destruct (NUM x I) as (z & Z & NZ).
    rewrite Z in V'. simpl in V'. auto. }
  assert (LI : length (pick (map fst ms) idx) = length ms).
  { destruct (SO _ NN) as [PE _]. rewrite <- IDX in PE. rewrite pick_length.
    - rewrite (Permutation_length PE), seq_length, !map_length. auto.
    - intros i I. assert (In i (seq 0 (length (map value (map snd ms))))) by (eapply Permutation_in; eauto).
      apply in_seq in H0. rewrite !map_length in *. lia. }
  assert (CR : crowd o ts eta k <-> eta <= length ms).
  { split.
    - intros (WL & W1 & W2 & W3). rewrite <- W2, LM, <- (map_length r_id). apply NoDup_incl_length; auto.
      intros c I. destruct (W3 c I) as (TP & z & WA). destruct (proj2 (TS c z)) as (x & X & D & _); auto.
      apply in_map_iff. eauto.
    - intros L. exists (firstn eta (map r_id (taking (t_rows tb) k))).
      assert (ND' : NoDup (firstn eta (map r_id (taking (t_rows tb) k)))).
      { apply nodup_firstn. auto. }
      split; auto. split; [rewrite firstn_length, map_length; lia|]. intros c I. apply firstn_in in I.
      apply in_map_iff in I. destruct I as (x & D & I). destruct (NUM x I) as (z & Z & _).
      destruct (proj1 (TS c z)) as [TP WA]; eauto. }
  destruct v as [|c v].
  - intros C. apply CR in C. assert (1 <= length ms / eta) by (apply Nat.div_le_lower_bound; lia).
    assert (length (firstn (length ms / eta) (pick (map fst ms) idx)) = 0) by (rewrite <- V; auto).
    rewrite firstn_length, LI in H1. lia.
  - assert (D1 : 1 <= length ms / eta).
    { destruct (length ms / eta); [discriminate|lia]. }
    assert (L : eta <= length ms).
    { destruct (Nat.le_gt_cases eta (length ms)); auto. rewrite Nat.div_small in D1; lia. }
    split; [apply CR; auto|].
    destruct (pick (map fst ms) idx) as [|c' pv] eqn:PK; [destruct (length ms / eta); discriminate|].
    assert (c' = c) by (destruct (length ms / eta); [lia|]; simpl in V; congruence). subst c'.
    rewrite IDX in PK. destruct (head_sorted _ _ _ _ SO NN (eq_trans (map_length _ _) (eq_sym (eq_trans (map_length _ _) (map_length _ _)))) PK)
      as (a & z & A1 & A2 & A3).
    rewrite S1, nth_error_map in A1. rewrite S2, map_map, nth_error_map in A2.
    destruct (nth_error (taking (t_rows tb) k) a) as [x|] eqn:NX; [|discriminate]. simpl in A1, A2.
    injection A1 as A1. injection A2 as A2. apply nth_error_In in NX. destruct (NUM x NX) as (z' & Z & _).
    rewrite Z in A2. simpl in A2. subst z'. exists z.
    destruct (proj1 (TS c z)) as [TP WA]; eauto. split; auto. split; auto.
    intros c2 z2 TP2 WA2. destruct (proj2 (TS c2 z2)) as (y & Y & _ & YP); auto. apply A3.
    rewrite S2, map_map. apply in_map_iff. exists y. rewrite YP. auto.
Qed.

Variable lg : Q -> nat -> Z.
Lemma make_brackets_nth : forall f eta ss bs i b, make_brackets lg f eta ss = Ok bs -> nth_error bs i = Some b ->
  exists s, nth_error ss i = Some s /\ make_bracket lg f eta s = Ok b.
Proof.
  induction ss as [|s ss IH]; intros bs i b E N; cbn [make_brackets] in E.
  - injection E as <-. destruct i; discriminate.
  - inv_bind E b1 B1. inv_bind E bs1 BS. injection E as <-. destruct i as [|i]; simpl in *.
    + injection N as <-. exists s. auto.
    + eapply IH; eauto.
Qed.

Lemma async_lemma : forall k f eta ts fresh draw q L lowrung, sorts argsort -> exact lg -> legal f -> 2 <= eta ->
  whole_log eta (f_upper f / f_lower f) (Z.of_nat L) -> o_ignore_errors o = false ->
  wf ts -> lowest k draw = Some lowrung -> ask argsort lg k o f eta ts fresh draw = Ok q ->
  match q_prev q with
  | Some (c, r) => r < L /\ crowd o ts eta r /\ (exists v, takes_part o c /\ waits o ts r c v /\
        forall c' v', takes_part o c' -> waits o ts r c' v' -> fl_ltb v' v = false) /\
      (forall r', r < r' < L -> ~ crowd o ts eta r')
  | None => forall r', lowrung <= r' < L -> ~ crowd o ts eta r'
  end.
Proof.
  intros k f eta ts fresh draw q L lowrung SO X LG E WL IG W LR A.  assert (E1 : 1 <= eta) by lia.
  assert (MAIN : forall tb lo hi b keys ps, observe o lo hi ts = Ok tb -> b_max b = L -> b_min b = lowrung ->
    async_promotions argsort eta L (members keys (drop_default o (dropna (t_rows tb)))) = Ok ps ->
    get_config_and_ids o f b (t_rows tb) ps fresh = Ok q ->
    match q_prev q with
    | Some (c, r) => r < L /\ crowd o ts eta r /\ (exists v, takes_part o c /\ waits o ts r c v /\
          forall c' v', takes_part o c' -> waits o ts r c' v' -> fl_ltb v' v = false) /\
        (forall r', r < r' < L -> ~ crowd o ts eta r')
    | None => forall r', lowrung <= r' < L -> ~ crowd o ts eta r'
    end).
  { intros tb lo hi b keys ps OB BM BN P G. apply get_config_inv in G.
    assert (EMPTY : forall r', r' < L -> (forall v', nget r' ps = Some v' -> v' = []) -> ~ crowd o ts eta r').
    { intros r' R' Z. destruct (async_defined _ _ _ _ r' P) as [v' V']; [apply in_seq; lia|].
      assert (v' = []) by auto. subst v'. apply (async_candidates _ _ _ _ _ _ _ _ _ _ SO E1 W IG OB P V'). }
    destruct G as [(r & c & x & v & K & PV & NX & QI & QH & QP & _ & HI)|(rung & QP & QI & _ & _ & _ & HI)]; rewrite QP.
    - assert (XC : r_id x = c). { destruct (gap_rows _ _ _ _ _ W OB) as (n & GR & _). eapply label_nth; eauto. }
      rewrite XC. pose proof (async_candidates _ _ _ _ _ _ _ _ _ _ SO E1 W IG OB P PV) as [C B]. simpl in *.
      split; [lia|]. split; auto. split; auto. intros r' R'. apply EMPTY; [lia|]. intros v' V'. eapply HI; eauto. lia.
    - intros r' R'. apply EMPTY; [lia|]. intros v' V'. eapply HI; eauto. lia. }
  destruct k as [s|s| |]; try discriminate; injection LR as <-; unfold ask in A.
  - inv_bind A b B. unfold asha_ask in A. inv_bind A tb T. inv_bind A ps P.
    destruct (bracket_top _ _ _ _ _ _ X LG E B WL) as (B1 & B2 & _).
    eapply MAIN; eauto. rewrite <- B1. exact P.
  - inv_bind A bb B. destruct bb as [b0 bs]. unfold ahb_ask in A. inv_bind A tb T. inv_bind A ps P.
    destruct (nth_error bs draw) as [b|] eqn:D; [|discriminate].
    unfold hyperband_brackets in B. inv_bind B b0' B0. inv_bind B bs' BS. injection B as -> ->.
    destruct (make_brackets_nth _ _ _ _ _ _ BS D) as (s & SS & MB).
    assert (s = draw).
    { assert (draw < S (b_max b0)) by (rewrite <- (seq_length (Datatypes.S (b_max b0)) 0); apply nth_error_Some; congruence).
      rewrite (nth_error_nth' _ 0) in SS by (rewrite seq_length; auto). rewrite seq_nth in SS by auto. simpl in SS. congruence. }
    subst s.
    destruct (bracket_top _ _ _ _ _ _ X LG E B0 WL) as (B1 & _).
    destruct (bracket_top _ _ _ _ _ _ X LG E MB WL) as (B2 & B3 & _).
    eapply MAIN; eauto. rewrite <- B1. exact P.
Qed.
End Async.
