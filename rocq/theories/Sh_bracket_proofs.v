(** Proofs about the brackets of a run. *)
From Verif Require Export Sh_sync_proofs.
Open Scope nat_scope.

Section Bracket.
Context {H : Type}.
Implicit Types (t u : strial H) (ts : list (strial H)) (x y : row H) (l rows : list (row H)) (tb : table H).
Variable o : options.
Variable argsort : list fl -> list nat.
Variable bs : list bracket.
Variable eta : nat.
Hypothesis all_good : forall b, In b bs -> exists sz, good eta b sz.
Notation d := (start_index o).

Lemma row_top : forall ts lo hi tb x, wf ts -> observe o lo hi ts = Ok tb -> In x (t_rows tb) ->
  (exists t, In t ts /\ st_id t = (r_id x, r_rung x)) /\
  forall t, In t ts -> fst (st_id t) = r_id x -> snd (st_id t) <= r_rung x.
Proof.
  intros ts lo hi tb x W E I. destruct (observe_spec _ _ _ _ _ E) as (_ & _ & B).
  destruct (B x I) as [[(t & T1 & T2 & _) TT]|(_ & (t & T1 & T2 & T3) & _)].
  - split; [eauto|]. intros u U D. apply TT; auto.
  - split; [eauto|]. intros u U D. assert (snd (st_id u) <= snd (st_id t)).
    { apply (w_top _ W); auto. rewrite T2. auto. }
    rewrite T2 in *. simpl in *. lia.
Qed.

Definition in_range ts : Prop := forall n b s t, nth_bracket bs d n b s -> In t ts ->
  s <= fst (st_id t) < s + base_size b ->
  b_min b <= snd (st_id t) <= b_max b /\ (st_prev t = None -> snd (st_id t) = b_min b).

Lemma reached : forall ts lo hi tb x n b s r, wf ts -> in_range ts -> observe o lo hi ts = Ok tb -> In x (t_rows tb) ->
  nth_bracket bs d n b s -> s <= r_id x < s + base_size b ->
  ((exists t, In t ts /\ st_id t = (r_id x, r)) <-> b_min b <= r <= r_rung x).
Proof.
  intros ts lo hi tb x n b s r W IR E I N B. destruct (row_top _ _ _ _ _ W E I) as [(t0 & T0 & ID0) TOP]. split.
  - intros (t & T & ID). destruct (IR n b s t N T) as [R _]; [rewrite ID; auto|].
    assert (snd (st_id t) <= r_rung x) by (apply TOP; auto; rewrite ID; auto). rewrite ID in *. simpl in *. lia.
  - intros R. assert (DOWN : forall j, j <= r_rung x - b_min b -> exists t, In t ts /\ st_id t = (r_id x, r_rung x - j)).
    { induction j as [|j IH]; intros J; [exists t0; rewrite Nat.sub_0_r; auto|].
      destruct IH as (t & T & ID); [lia|]. destruct (IR n b s t N T) as [_ P]; [rewrite ID; auto|].
      pose proof (w_prev _ W t T) as PV. destruct (st_prev t) as [p|].
      - destruct PV as (r' & u & U1 & U2 & U3 & U4 & _). exists u. split; auto. rewrite U4. rewrite U1 in ID.
        injection ID as ID1 ID2. destruct p; simpl in *. f_equal; [auto|lia].
      - exfalso. specialize (P eq_refl). rewrite ID in P. simpl in P. lia. }
    destruct (DOWN (r_rung x - r)) as (t & T & ID); [lia|]. exists t. split; auto. rewrite ID. f_equal. lia.
Qed.

Lemma nodup_fst : forall ts r (p : strial H -> bool), NoDup (map st_id ts) -> (forall t, p t = true -> snd (st_id t) = r) ->
  NoDup (map (fun t => fst (st_id t)) (filter p ts)).
Proof.
  intros ts r p ND P. induction ts as [|t ts IH]; simpl; [constructor|]. simpl in ND. inversion ND as [|? ? NI ND']; subst.
  destruct (p t) eqn:PT; auto. simpl. constructor; auto. intros I. apply in_map_iff in I. destruct I as (u & D & U).
  apply filter_In in U. destruct U as [U PU]. apply NI. apply in_map_iff. exists u. split; auto.
  pose proof (P t PT). pose proof (P u PU). destruct (st_id t), (st_id u); simpl in *; congruence.
Qed.

Lemma count_above : forall ts lo hi tb n b s r, wf ts -> in_range ts -> observe o lo hi ts = Ok tb ->
  nth_bracket bs d n b s -> b_min b <= r ->
  evaluations ts s (base_size b) r = above (slice s (s + base_size b) (t_rows tb)) r.
Proof.
  intros ts lo hi tb n b s r W IR E N RM. unfold evaluations, above.
  set (p := fun t : strial H => _). set (q := fun r0 : row H => r <=? r_rung r0).
  rewrite <- (map_length (fun t => fst (st_id t)) (filter p ts)), <- (map_length r_id (filter q _)).
  apply Permutation_length. destruct (observe_spec _ _ _ _ _ E) as (So & A & _). destruct (gap_rows _ _ _ _ _ W E) as (m & G & _).
  assert (PS : forall t, p t = true <-> s <= fst (st_id t) < s + base_size b /\ snd (st_id t) = r).
  { intros t. unfold p. rewrite !Bool.andb_true_iff, Nat.leb_le, Nat.ltb_lt, Nat.eqb_eq. tauto. }
  apply NoDup_Permutation.
  - eapply nodup_fst; [apply W|]. intros t P. apply PS in P. apply P.
  - apply sorted_nodup. apply sorted_filter, slice_sorted. auto.
  - intros c. rewrite !in_map_iff. split.
    + intros (t & D & I). apply filter_In in I. destruct I as [I P]. apply PS in P. destruct P as [P1 P2].
      destruct (A t I) as (x & X & XD). exists x. split; [congruence|]. apply filter_In. split.
      * apply (slice_rows _ m); auto. split; auto. lia.
      * apply Nat.leb_le. apply (reached ts lo hi tb x n b s r); auto; [lia|]. exists t. split; auto. destruct (st_id t); simpl in *; congruence.
    + intros (x & D & I). apply filter_In in I. destruct I as [I Q]. apply Nat.leb_le in Q. apply (slice_rows _ m) in I; auto.
      destruct I as [I B]. destruct (proj2 (reached ts lo hi tb x n b s r W IR E I N B)) as (t & T & ID); [lia|].
      exists t. rewrite ID. split; auto. apply filter_In. split; auto. apply PS. rewrite ID. simpl. lia.
Qed.

(** The rows of a block *)
Lemma block_rows : forall ts lo hi tb n b s x, wf ts -> in_range ts -> observe o lo hi ts = Ok tb ->
  nth_bracket bs d n b s -> In x (slice s (s + base_size b) (t_rows tb)) ->
  In x (t_rows tb) /\ s <= r_id x < s + base_size b /\ b_min b <= r_rung x <= b_max b.
Proof.
  intros ts lo hi tb n b s x W IR E N I. destruct (gap_rows _ _ _ _ _ W E) as (m & G & _).
  apply (slice_rows _ m) in I; auto. destruct I as [I B]. split; auto. split; auto.
  destruct (row_top _ _ _ _ _ W E I) as [(t & T & ID) _]. destruct (IR n b s t N T) as [R _]; [rewrite ID; auto|].
  rewrite ID in R. auto.
Qed.
Lemma drop_default_block : forall s e rows n, map r_id rows = seq 0 n -> d <= s ->
  drop_default o (slice s e rows) = slice s e rows.
Proof.
  intros s e rows n G L. unfold drop_default, start_index in *. rewrite Bool.andb_comm in L.
  destruct (o_default_first o && o_default_at_target o); auto.
  assert (ALL : forall x, In x (slice s e rows) -> r_id x <> 0).
  { intros x I. apply (slice_rows _ n) in I; auto. lia. }
  induction (slice s e rows) as [|y l IH]; simpl; auto.
  destruct (Nat.eqb_spec (r_id y) 0) as [Z|_]; [exfalso; apply (ALL y); simpl; auto|]. simpl. f_equal. apply IH.
  intros x I. apply ALL. simpl. auto.
Qed.

Definition within ts : Prop := forall n b s r z, nth_bracket bs d n b s -> nget r (b_sizes b) = Some z ->
  evaluations ts s (base_size b) r <= z.

Definition inv ts : Prop := wf ts /\ in_range ts /\ within ts.

(** a candidate of a block leaves room above *)
Lemma ready_room : forall ts lo hi tb n b s sz k c v, inv ts -> observe o lo hi ts = Ok tb ->
  nth_bracket bs d n b s -> good eta b sz -> b_min b <= k < b_max b ->
  ready argsort eta sz (b_max b) (slice s (s + base_size b) (t_rows tb)) k (c :: v) ->
  evaluations ts s (base_size b) k = sz k /\ evaluations ts s (base_size b) (S k) < sz (S k).
Proof.
  intros ts lo hi tb n b s sz k c v (W & IR & WI) E N G K (_ & FULL & _ & _ & idx & _ & V).
  set (cu := slice s (s + base_size b) (t_rows tb)) in *.
  assert (CK : evaluations ts s (base_size b) k = above cu k) by (eapply count_above; eauto; lia).
  assert (CS : evaluations ts s (base_size b) (S k) = above cu (S k)) by (eapply count_above; eauto; lia).
  pose proof (WI n b s k _ N (g_get _ _ _ G k ltac:(lia))) as W1.
  pose proof (WI n b s (S k) _ N (g_get _ _ _ G (S k) ltac:(lia))) as W2.
  pose proof (g_step _ _ _ G k K) as ST. pose proof (above_step cu k) as AS.
  split; [lia|]. rewrite CS, ST in *. set (tk := (_ - _)%Z) in V.
  assert (TK : (0 < tk)%Z).
  { destruct (Z.lt_trichotomy tk 0) as [L|[Z0|L]]; auto.
    - exfalso. unfold tk in L. lia.
    - exfalso. rewrite Z0 in V. simpl in V. discriminate. }
  unfold tk in TK. lia.
Qed.

(** ** Asking keeps the invariant *)
Lemma evaluations_perm : forall ts ts' s w r, Permutation ts ts' -> evaluations ts s w r = evaluations ts' s w r.
Proof.
  intros ts ts' s w r P. unfold evaluations. apply Permutation_length.
  induction P; simpl; repeat destruct (_ && _); auto; try constructor; auto. etransitivity; eauto.
Qed.
Lemma inv_perm : forall ts ts', Permutation ts ts' -> inv ts -> inv ts'.
Proof.
  intros ts ts' P (W & IR & WI). split; [eapply wf_perm; eauto|]. split.
  - intros n b s t N I. apply (IR n b s t N). eapply Permutation_in; [apply Permutation_sym|]; eauto.
  - intros n b s r z N Z. rewrite <- (evaluations_perm _ _ _ _ _ P). eapply WI; eauto.
Qed.
Lemma evaluations_cons : forall t ts s w r, evaluations (t :: ts) s w r =
  (if (s <=? fst (st_id t)) && (fst (st_id t) <? s + w) && (snd (st_id t) =? r) then 1 else 0) + evaluations ts s w r.
Proof. intros. unfold evaluations. cbn [filter]. destruct (_ && _); auto. Qed.

Definition from_block (tb : table H) (b : bracket) (n s : nat) (cu : list (row H)) : Prop :=
  nth_bracket bs d n b s /\ cu = slice s (s + base_size b) (t_rows tb) /\ (s <= length (t_rows tb) \/ n = 0) /\
  (length (t_rows tb) < s + base_size b \/
     s + base_size b <= length (t_rows tb) /\ exists ps, some_promotion ps = true /\
       sync_promotions argsort eta b (members (map fst (b_rungs b)) (drop_default o cu)) (t_obj tb) = Ok ps).

Lemma inv_answer : forall f ts lo hi tb b n s cu ps fresh q, inv ts -> observe o lo hi ts = Ok tb ->
  from_block tb b n s cu ->
  sync_promotions argsort eta b (members (map fst (b_rungs b)) (drop_default o cu)) (t_obj tb) = Ok ps ->
  get_config_and_ids o f b (t_rows tb) ps fresh = Ok q ->
  inv (stored q :: ts) /\
  (match q_prev q with
   | Some (c, k) => exists sz v, good eta b sz /\ b_min b <= k < b_max b /\ s <= c < s + base_size b /\
        ready argsort eta sz (b_max b) (slice s (s + base_size b) (t_rows tb)) k (c :: v)
   | None => True
   end).
Proof.
  intros f ts lo hi tb b n s cu ps fresh q IV E (N & CU & SL & CASE) P G.
  pose proof IV as (W & IR & WI). destruct (gap_rows _ _ _ _ _ W E) as (nr & GR & GT).
  assert (NR : length (t_rows tb) = nr) by (rewrite <- (map_length r_id), GR, seq_length; auto).
  assert (DD : drop_default o cu = cu).
  { rewrite CU. eapply drop_default_block; eauto. eapply nth_bracket_start; eauto. }
  rewrite DD in *. destruct (all_good b (nth_bracket_in _ _ _ _ _ N)) as [sz GD].
  assert (RB : forall x, In x cu -> r_rung x <= b_max b).
  { intros x I. rewrite CU in I. apply (block_rows _ _ _ _ _ _ _ _ W IR E N I). }
  destruct (sync_spec _ _ _ _ _ _ _ _ GD RB P) as [KEYS PR].
  assert (SP : sound_promos (t_rows tb) ps).
  { eapply sound_subset; [|eapply sync_promotions_sound; exact P]. intros x I. rewrite CU in I. eapply slice_in; eauto. }
  pose proof (get_config_inv _ _ _ _ _ _ _ G) as AN.
  destruct (wf_answer _ _ _ _ _ _ _ _ _ _ W E SP AN) as [NI W'].
  destruct AN as [(k & c & x & v & K & PV & NX & QI & QH & QP & QF & _)|(rung & QP & QI & QH & QR & QF & EMP)].
  - assert (XC : r_id x = c) by (eapply label_nth; eauto). rewrite XC in *.
    destruct (PR k (c :: v) PV) as [_ RD]; [discriminate|].
    assert (CB : s <= c < s + base_size b).
    { destruct (sync_promotions_sound _ _ _ _ _ _ _ P k (c :: v) c) as (y & Y1 & Y2 & _); [apply nget_in; auto|simpl; auto|].
      rewrite CU in Y1. destruct (block_rows _ _ _ _ _ _ _ _ W IR E N Y1) as (_ & B & _). lia. }
    split; [|rewrite QP; exists sz, v; rewrite <- CU; auto].
    rewrite CU in RD. destruct (ready_room _ _ _ _ _ _ _ _ _ _ _ IV E N GD K RD) as [R1 R2].
    split; auto. split.
    + intros m b' s' t M [<-|I] B; [|eapply IR; eauto]. cbn [stored st_id st_prev] in *. rewrite QI in *. cbn [fst snd] in *.
      destruct (same_bracket _ _ all_good _ _ _ _ _ _ _ _ N M CB B) as (_ & <- & _). split; [lia|congruence].
    + intros m b' s' r z M Z. rewrite evaluations_cons. cbn [stored st_id]. rewrite QI. cbn [fst snd].
      pose proof (WI m b' s' r z M Z).
      destruct (Nat.leb_spec s' c), (Nat.ltb_spec c (s' + base_size b')), (Nat.eqb_spec (S k) r); cbn [andb]; try lia.
      destruct (same_bracket _ _ all_good _ _ _ _ _ _ _ c N M CB) as (_ & <- & <-); [lia|]. subst r.
      rewrite (g_get _ _ _ GD) in Z by lia. injection Z as <-. lia.
  - rewrite QP. split; auto. rewrite (new_id_gap _ _ GR) in QI.
    assert (PART : length (t_rows tb) < s + base_size b).
    { destruct CASE as [C|(_ & ps' & SM & P')]; auto. exfalso. rewrite P in P'. injection P' as <-.
      destruct (some_promotion_spec _ _ _ _ _ _ _ _ GD RB P SM) as (k & v & K & KV & NE). apply NE. eapply EMP; eauto. }
    assert (SAME : forall m b' s', nth_bracket bs d m b' s' -> s' <= nr < s' + base_size b' ->
        b' = b /\ s' = s /\ rung = b_min b).
    { intros m b' s' M B.
      assert (SN : s <= nr).
      { destruct SL as [SL| ->]; [lia|]. inversion N; subst. pose proof (nth_bracket_start _ _ _ _ _ M). lia. }
      destruct (same_bracket _ _ all_good _ _ _ _ _ _ _ nr N M) as (_ & <- & <-); [lia|lia|].
      split; auto. split; auto. rewrite QR. destruct (t_rows tb) as [|y yl] eqn:TR; [|rewrite !Bool.andb_false_r; auto].
      simpl in NR. pose proof (nth_bracket_start _ _ _ _ _ N) as DS. unfold start_index in DS.
      destruct (o_default_at_target o), (o_default_first o); simpl in *; rewrite ?Bool.andb_false_r; auto. lia. }
    split; auto. split.
    + intros m b' s' t M [<-|I] B; [|eapply IR; eauto]. cbn [stored st_id st_prev] in *. rewrite QI in *. cbn [fst snd] in *.
      destruct (SAME m b' s' M B) as (-> & -> & ->). split; auto. pose proof (g_le _ _ _ GD). lia.
    + intros m b' s' r z M Z. rewrite evaluations_cons. cbn [stored st_id]. rewrite QI. cbn [fst snd].
      pose proof (WI m b' s' r z M Z).
      destruct (Nat.leb_spec s' nr), (Nat.ltb_spec nr (s' + base_size b')), (Nat.eqb_spec rung r); cbn [andb]; try lia.
      destruct (SAME m b' s' M) as (-> & -> & RG); [lia|]. subst r. rewrite RG in *.
      pose proof (g_le _ _ _ GD) as LE. rewrite (g_get _ _ _ GD) in Z by lia. injection Z as <-.
      rewrite (count_above _ _ _ _ _ _ _ _ W IR E N (Nat.le_refl _)).
      assert (AL : above (slice s (s + base_size b) (t_rows tb)) (b_min b) <= length (slice s (s + base_size b) (t_rows tb))).
      { unfold above. clear. induction (slice _ _ _) as [|y yl IH]; simpl; auto. destruct (_ <=? _); simpl; lia. }
      assert (SLN : length (slice s (s + base_size b) (t_rows tb)) = nr - s).
      { unfold slice. rewrite firstn_length, skipn_length. lia. }
      rewrite <- (g_base _ _ _ GD). lia.
Qed.

Lemma inv_report : forall a t b (x : outcome), inv (a ++ t :: b) -> st_out t = Pending -> x <> Pending ->
  inv (a ++ with_outcome t x :: b).
Proof.
  intros a t b x (W & IR & WI) P X. split; [apply wf_report; auto|]. split.
  - intros n b1 s u N I. apply in_app_or in I. destruct I as [I|[<-|I]].
    + apply (IR n b1 s u N). apply in_or_app. auto.
    + apply (IR n b1 s t N). apply in_or_app. simpl. auto.
    + apply (IR n b1 s u N). apply in_or_app. simpl. auto.
  - intros n b1 s r z N Z. pose proof (WI n b1 s r z N Z) as L. unfold evaluations in *.
    rewrite filter_app, app_length in *. cbn [filter with_outcome st_id] in *. destruct (_ && _); auto.
Qed.

Lemma inv_nil : inv [].
Proof.
  split; [|split].
  - constructor; simpl; try contradiction; [constructor|]. exists 0. intros c. split; [intros (t & [] & _)|lia].
  - intros n b s t _ [].
  - intros n b s r z _ _. unfold evaluations. simpl. lia.
Qed.
End Bracket.

(** ** The optimizers *)
Section Run.
Context {H : Type}.
Implicit Types (ts : list (strial H)).
Variable argsort : list fl -> list nat.
Variable lg : Q -> nat -> Z.

Lemma find_bracket_hb : forall fuel eta o b obj (rows : list (row H)) s e,
  find_hb_bracket argsort fuel eta o [b] obj rows 0 s e =
  bind (find_bracket argsort fuel eta o b obj (base_size b) rows s e) (fun cu => Ok (b, cu)).
Proof.
  induction fuel as [|fuel IH]; intros eta o b obj rows s e; cbn [find_hb_bracket find_bracket]; auto.
  cbn [nth_error length]. change ((0 + 1) mod 1) with 0. cbn [nth_error]. rewrite IH.
  destruct (e <=? length rows); auto. destruct (_ <? _); auto.
  destruct (sync_promotions _ _ _ _ _) as [ps|er]; cbn [bind]; auto. destruct (some_promotion ps); auto.
Qed.
Lemma sh_is_hb : forall o f eta b ts fresh sz, good eta b sz ->
  sh_ask argsort o f eta b ts fresh = hb_ask argsort o f eta b [b] ts fresh.
Proof.
  intros o f eta b ts fresh sz G. unfold sh_ask, hb_ask. destruct (observe _ _ _ _) as [tb|]; auto. cbn [bind].
  assert (SZ : ngetitem (b_min b) (b_sizes b) = Ok (base_size b)).
  { unfold ngetitem. pose proof (g_le _ _ _ G). rewrite (g_get _ _ _ G), (g_base _ _ _ G) by lia. auto. }
  rewrite SZ. cbn [bind]. rewrite find_bracket_hb. destruct (find_bracket _ _ _ _ _ _ _ _ _ _); auto.
Qed.

Lemma brackets_good : forall k f eta bs, exact lg -> legal f -> 2 <= eta -> brackets_of lg k f eta bs ->
  forall b, In b bs -> exists sz, good eta b sz.
Proof.
  intros k f eta bs X LG E B b I. destruct k; simpl in B; try contradiction.
  - destruct B as (b1 & M & ->). destruct I as [<-|[]]. eapply good_bracket; eauto.
  - destruct B as (b0 & B). unfold hyperband_brackets in B. inv_bind B b0' B0. inv_bind B bs' BS. injection B as -> ->.
    destruct (make_brackets_in _ _ _ _ _ _ BS I) as (s & _ & M). eapply good_bracket; eauto.
Qed.

Lemma sync_view : forall k o f eta bs ts fresh draw q, exact lg -> legal f -> 2 <= eta -> brackets_of lg k f eta bs ->
  ask argsort lg k o f eta ts fresh draw = Ok q ->
  exists lo hi tb b n s cu ps, observe o lo hi ts = Ok tb /\ from_block o argsort bs eta tb b n s cu /\
    sync_promotions argsort eta b (members (map fst (b_rungs b)) (drop_default o cu)) (t_obj tb) = Ok ps /\
    get_config_and_ids o f b (t_rows tb) ps fresh = Ok q.
Proof.
  intros k o f eta bs ts fresh draw q X LG E BR A. pose proof (brackets_good _ _ _ _ X LG E BR) as GD.
  assert (MAIN : forall b0, hb_ask argsort o f eta b0 bs ts fresh = Ok q ->
     exists lo hi tb b n s cu ps, observe o lo hi ts = Ok tb /\ from_block o argsort bs eta tb b n s cu /\
    sync_promotions argsort eta b (members (map fst (b_rungs b)) (drop_default o cu)) (t_obj tb) = Ok ps /\
    get_config_and_ids o f b (t_rows tb) ps fresh = Ok q).
  { intros b0 HB. unfold hb_ask in HB. inv_bind HB tb T. destruct bs as [|b1 bs1] eqn:BE; [discriminate|]. rewrite <- BE in *.
    inv_bind HB size SZ. inv_bind HB bc C. destruct bc as [b cu]. inv_bind HB ps P. apply ngetitem_ok in SZ.
    assert (IB : In b1 bs) by (rewrite BE; simpl; auto).
    rewrite (width_fun bs eta GD b1 size IB SZ) in C.
    assert (LB : length bs <> 0) by (rewrite BE; discriminate).
    replace 0 with (0 mod length bs) in C by (apply Nat.mod_0_l; auto).
    destruct (find_hb_spec o argsort bs eta GD _ _ _ _ _ _ _ _ (ex_intro _ b1 (conj (nb_first bs (start_index o) b1 ltac:(rewrite BE; auto)) eq_refl)) (or_intror eq_refl) C)
      as (m & s' & F). exists (b_min b0), (b_max b0), tb, b, m, s', cu, ps. auto. }
  destruct k as [s|s| |]; simpl in BR; try contradiction; unfold ask in A.
  - destruct BR as (b & M & ->). rewrite M in A. cbn [bind] in A.
    destruct (GD b (or_introl eq_refl)) as [sz G]. rewrite (sh_is_hb _ _ _ _ _ _ _ G) in A. eauto.
  - destruct BR as (b0 & B). rewrite B in A. cbn [bind] in A. eauto.
Qed.

Lemma history_inv : forall k o f eta bs ts, exact lg -> legal f -> 2 <= eta -> brackets_of lg k f eta bs ->
  history (ask argsort lg k o f eta) ts -> inv o bs ts.
Proof.
  intros k o f eta bs ts X LG E BR HI. pose proof (brackets_good _ _ _ _ X LG E BR) as GD.
  induction HI as [|ts ts' fresh draw q HI IH P A|a t b x HI IH O XX].
  - apply inv_nil.
  - destruct (sync_view _ _ _ _ _ _ _ _ _ X LG E BR A) as (lo & hi & tb & b & n & s & cu & ps & OB & FB & PS & G).
    destruct (inv_answer _ _ _ _ GD _ _ _ _ _ _ _ _ _ _ _ _ (inv_perm _ _ _ _ P IH) OB FB PS G) as [I _].
    eapply inv_perm; [|exact I]. constructor. apply Permutation_sym. auto.
  - apply inv_report; auto.
Qed.

Lemma size_lemma : forall k o f eta bs ts n b s w r z, exact lg -> legal f -> 2 <= eta -> brackets_of lg k f eta bs ->
  history (ask argsort lg k o f eta) ts -> nth_bracket bs (first_number o) n b s -> width b w ->
  nget r (b_sizes b) = Some z -> evaluations ts s w r <= z.
Proof.
  intros k o f eta bs ts n b s w r z X LG E BR HI N WD Z. pose proof (brackets_good _ _ _ _ X LG E BR) as GD.
  destruct (history_inv _ _ _ _ _ _ X LG E BR HI) as (_ & _ & WI).
  rewrite (width_fun bs eta GD b w (nth_bracket_in _ _ _ _ _ N) WD). eapply WI; eauto.
Qed.
End Run.
