(** Proofs about histories of asks and reports: ids and predecessors. *)
From Coq Require Import Lqa.
From Verif Require Export Sh_proofs.
Open Scope nat_scope.

Section Hist.
Context {H : Type}.
Implicit Types (t u w : strial H) (ts : list (strial H)) (x y : row H) (l rows : list (row H)) (tb : table H).

Record wf ts : Prop := {
  w_nodup : NoDup (map st_id ts);
  w_gap : exists n, forall c, (exists t, In t ts /\ fst (st_id t) = c) <-> c < n;
  w_top : forall t u, In t ts -> In u ts -> fst (st_id t) = fst (st_id u) -> st_out t = Pending ->
            snd (st_id u) <= snd (st_id t);
  w_hps : forall t u, In t ts -> In u ts -> fst (st_id t) = fst (st_id u) -> st_hps t = st_hps u;
  w_prev : forall t, In t ts ->
     match st_prev t with
     | Some p => exists r u, st_id t = (fst p, S r) /\ snd p = r /\ In u ts /\ st_id u = p /\ finished u
     | None => forall u, In u ts -> fst (st_id u) = fst (st_id t) -> snd (st_id t) <= snd (st_id u)
     end
}.

Lemma same_id : forall ts t u, NoDup (map st_id ts) -> In t ts -> In u ts -> st_id t = st_id u -> t = u.
Proof.
  induction ts as [|a ts IH]; intros t u N I J E; [contradiction|]. simpl in N. inversion N; subst.
  destruct I as [<-|I], J as [<-|J]; auto.
  - exfalso. apply H2. rewrite E. apply in_map. auto.
  - exfalso. apply H2. rewrite <- E. apply in_map. auto.
Qed.

Lemma wf_perm : forall ts ts', Permutation ts ts' -> wf ts -> wf ts'.
Proof.
  intros ts ts' P [N G T HP PR].
  assert (I : forall t, In t ts <-> In t ts') by (intros; split; apply Permutation_in; auto; apply Permutation_sym; auto).
  constructor.
  - eapply Permutation_NoDup; [apply Permutation_map; eauto|auto].
  - destruct G as [n G]. exists n. intros c. rewrite <- G. split; intros (t & A & B); exists t; split; auto; apply I; auto.
  - intros t u A B. apply T; apply I; auto.
  - intros t u A B. apply HP; apply I; auto.
  - intros t A. apply I in A. specialize (PR t A). destruct (st_prev t).
    + destruct PR as (r & u & X). exists r, u. rewrite <- I. auto.
    + intros u U. apply PR. apply I. auto.
Qed.

Lemma gap_rows : forall ts o lo hi tb, wf ts -> observe o lo hi ts = Ok tb ->
  exists n, map r_id (t_rows tb) = seq 0 n /\ forall c, (exists t, In t ts /\ fst (st_id t) = c) <-> c < n.
Proof.
  intros ts o lo hi tb W E. destruct (observe_spec _ _ _ _ _ E) as (So & A & B).
  destruct (w_gap _ W) as [n G]. exists n. split; auto. apply position_label; auto.
  intros c. rewrite <- G. split.
  - intros (x & X & <-). destruct (B x X) as [[(t & T & ID & _) _]|(_ & (t & T & ID & _) & _)];
      exists t; rewrite ID; auto.
  - intros (t & T & <-). apply A. auto.
Qed.

Lemma fold_max_seq : forall n k m, fold_left Nat.max (seq k n) m = Nat.max m (k + n - 1) \/ n = 0.
Proof.
  induction n as [|n IH]; intros k m; auto. left. simpl. destruct (IH (S k) (Nat.max m k)) as [E| ->].
  - rewrite E. lia.
  - simpl. lia.
Qed.
Lemma new_id_gap : forall rows n, map r_id rows = seq 0 n -> new_id rows = n.
Proof.
  intros rows n E. unfold new_id. rewrite E. destruct n as [|n]; auto. cbn [seq].
  destruct (fold_max_seq n 1 0) as [F| ->]; [rewrite F; lia|auto].
Qed.

(** Adding the answer keeps the invariant. *)
Lemma wf_answer : forall o f b lo hi ts tb ps fresh q, wf ts -> observe o lo hi ts = Ok tb ->
  sound_promos (t_rows tb) ps -> answers o f b (t_rows tb) ps fresh q ->
  ~ In (q_id q) (map st_id ts) /\ wf (stored q :: ts).
Proof.
  intros o f b lo hi ts tb ps fresh q W E SP AN.
  destruct (observe_spec _ _ _ _ _ E) as (So & A & B). destruct (gap_rows _ _ _ _ _ W E) as (n & G & GT).
  destruct AN as [(k & c & x & v & K & PV & NX & QI & QH & QP & QF & _)|(rung & QP & QI & QH & _ & QF & _)].
  - assert (XC : r_id x = c) by (eapply label_nth; eauto).
    destruct (SP k (c :: v) c) as (y & Y1 & Y2 & Y3 & Y4); [apply nget_in; auto|simpl; auto|].
    assert (XY : x = y).
    { apply nth_error_In in NX. pose proof (in_find _ _ So NX). pose proof (in_find _ _ So Y1). congruence. }
    subst y. destruct (B x Y1) as [[(t & T & ID & FT & _ & TH & TF) TOP]|[NAN _]]; [|rewrite NAN in Y4; discriminate].
    rewrite XC, Y3 in *.
    assert (NEW : forall u, In u ts -> fst (st_id u) = c -> snd (st_id u) < S k).
    { intros u U1 U2. destruct (TOP u U1 U2). lia. }
    assert (NI : ~ In (q_id q) (map st_id ts)).
    { rewrite QI. intros I. apply in_map_iff in I. destruct I as (u & U1 & U2).
      assert (snd (st_id u) < S k) by (apply NEW; auto; rewrite U1; auto). rewrite U1 in *. simpl in *. lia. }
    split; auto. destruct W as [WN WG WT WH WP]. constructor.
    + simpl. constructor; auto.
    + exists n. intros d. rewrite <- GT. split.
      * intros (u & [<-|U] & D); [|eauto]. simpl in D. rewrite QI in D. simpl in D. subst d.
        exists t. rewrite ID. auto.
      * intros (u & U & D). exists u. simpl. auto.
    + intros t1 u1 [<-|T1] [<-|U1] D P; auto.
      * simpl in *. rewrite QI in *. simpl in *. assert (snd (st_id u1) < S k) by (apply NEW; auto; congruence). lia.
      * exfalso. assert (finished t1); [|contradiction]. apply TOP; auto. simpl in D. rewrite QI in D. simpl in D. congruence.
    + intros t1 u1 [<-|T1] [<-|U1] D; simpl in *; rewrite ?QI in D; simpl in D; auto.
      * rewrite QH, <- TH. apply WH; auto. rewrite ID. simpl. congruence.
      * rewrite QH, <- TH. apply WH; auto. rewrite ID. simpl. congruence.
    + intros u [<-|U].
      * cbn [st_prev stored]. rewrite QP. exists k, t. cbn [st_id stored fst snd]. rewrite QI.
        repeat split; simpl; auto.
      * specialize (WP u U). destruct (st_prev u) as [p|].
        -- destruct WP as (r & u' & X). exists r, u'. simpl. tauto.
        -- intros w [<-|I] D; auto. simpl in *. rewrite QI in *. simpl in *.
           assert (snd (st_id u) < S k) by (apply NEW; auto; congruence). lia.
  - rewrite (new_id_gap _ _ G) in QI.
    assert (NEW : forall u, In u ts -> fst (st_id u) <> n).
    { intros u U D. assert (n < n) by (apply GT; eauto). lia. }
    assert (NI : ~ In (q_id q) (map st_id ts)).
    { rewrite QI. intros I. apply in_map_iff in I. destruct I as (u & U1 & U2). apply (NEW u); auto. rewrite U1. auto. }
    split; auto. destruct W as [WN WG WT WH WP]. constructor.
    + simpl. constructor; auto.
    + exists (S n). intros d. split.
      * intros (u & [<-|U] & D); [simpl in D; rewrite QI in D; simpl in D; lia|].
        assert (d < n) by (apply GT; eauto). lia.
      * intros D. destruct (Nat.eq_dec d n) as [->|]; [exists (stored q); simpl; rewrite QI; auto|].
        destruct (proj2 (GT d)) as (u & U); [lia|]. exists u. simpl. tauto.
    + intros t1 u1 [<-|T1] [<-|U1] D P; auto; simpl in D; rewrite QI in D; simpl in D; exfalso; eapply NEW; eauto.
    + intros t1 u1 [<-|T1] [<-|U1] D; auto; simpl in D; rewrite QI in D; simpl in D; exfalso; eapply NEW; eauto.
    + intros u [<-|U].
      * cbn [st_prev stored]. rewrite QP. intros w [<-|I] D; [auto|]. simpl in D. rewrite QI in D. simpl in D. exfalso; eapply NEW; eauto.
      * specialize (WP u U). destruct (st_prev u) as [p|].
        -- destruct WP as (r & u' & X). exists r, u'. simpl. tauto.
        -- intros w [<-|I] D; auto. simpl in D. rewrite QI in D. simpl in D. exfalso; eapply NEW; eauto.
Qed.

Lemma wf_report : forall a t b (x : outcome), wf (a ++ t :: b) -> st_out t = Pending -> x <> Pending ->
  wf (a ++ with_outcome t x :: b).
Proof.
  intros a t b z [N G T HP PR] P X.
  assert (I : forall w, In w (a ++ with_outcome t z :: b) -> w = with_outcome t z \/ In w (a ++ t :: b)).
  { intros w W. apply in_app_or in W. destruct W as [W|[<-|W]]; auto; right; apply in_or_app; simpl; auto. }
  assert (J : forall w, In w (a ++ t :: b) -> exists w', In w' (a ++ with_outcome t z :: b) /\ st_id w' = st_id w /\
     (finished w -> finished w')).
  { intros w W. apply in_app_or in W. destruct W as [W|[<-|W]].
    - exists w. split; [apply in_or_app; auto|auto].
    - exists (with_outcome t z). split; [apply in_or_app; simpl; auto|auto].
    - exists w. split; [apply in_or_app; simpl; auto|auto]. }
  assert (TI : In t (a ++ t :: b)) by (apply in_or_app; simpl; auto).
  assert (J2 : forall w, In w (a ++ with_outcome t z :: b) -> exists w', In w' (a ++ t :: b) /\ st_id w' = st_id w /\
     st_hps w' = st_hps w /\ st_prev w' = st_prev w /\ (st_out w = Pending -> st_out w' = Pending)).
  { intros w W. destruct (I w W) as [->|W']; [exists t|exists w]; simpl; auto 6. }
  constructor.
  - rewrite map_app in *. exact N.
  - destruct G as [n G]. exists n. intros c. rewrite <- G. split.
    + intros (w & W & D). destruct (J2 w W) as (w' & W' & E & _). exists w'. rewrite E. auto.
    + intros (w & W & D). destruct (J w W) as (w' & W' & E & _). exists w'. rewrite E. auto.
  - intros t1 u1 T1 U1 D O. destruct (J2 t1 T1) as (t' & T' & E & _ & _ & Q). destruct (J2 u1 U1) as (u' & U' & E' & _).
    rewrite <- E, <- E' in *. apply T; auto.
  - intros t1 u1 T1 U1 D. destruct (J2 t1 T1) as (t' & T' & E & F & _). destruct (J2 u1 U1) as (u' & U' & E' & F' & _).
    rewrite <- F, <- F'. apply HP; auto. congruence.
  - intros t1 T1. destruct (J2 t1 T1) as (t' & T' & E & _ & F & _). specialize (PR t' T'). rewrite <- F.
    destruct (st_prev t') as [p|].
    + destruct PR as (r & u & R1 & R2 & R3 & R4 & R5). destruct (J u R3) as (u' & U1 & U2 & U3).
      exists r, u'. rewrite <- E. repeat split; auto. congruence.
    + intros w W D. destruct (J2 w W) as (w' & W' & E' & _). rewrite <- E, <- E' in *. auto.
Qed.

(** ** Every answer of the four optimizers *)
Variable argsort : list fl -> list nat.
Variable lg : Q -> nat -> Z.

Lemma find_bracket_in : forall fuel eta o b obj size rows s e cut,
  find_bracket argsort fuel eta o b obj size rows s e = Ok cut -> forall x, In x cut -> In x rows.
Proof.
  induction fuel as [|fuel IH]; intros eta o b obj size rows s e cut E x I; cbn [find_bracket] in E; [discriminate|].
  destruct (e <=? length rows); [|injection E as <-; eapply slice_in; eauto].
  destruct (_ <? _); [|eapply IH; eauto]. inv_bind E ps PS.
  destruct (some_promotion ps); [injection E as <-; eapply slice_in; eauto|eapply IH; eauto].
Qed.
Lemma find_hb_bracket_in : forall fuel eta o bs obj rows i s e b cut,
  find_hb_bracket argsort fuel eta o bs obj rows i s e = Ok (b, cut) ->
  In b bs /\ forall x, In x cut -> In x rows.
Proof.
  induction fuel as [|fuel IH]; intros eta o bs obj rows i s e b cut E; cbn [find_hb_bracket] in E; [discriminate|].
  destruct (nth_error bs i) as [b'|] eqn:B; [|discriminate]. apply nth_error_In in B.
  destruct (e <=? length rows); [|injection E as <- <-; split; auto; intros; eapply slice_in; eauto].
  assert (NX : match nth_error bs ((i + 1) mod length bs) with
      | Some b'0 => find_hb_bracket argsort fuel eta o bs obj rows ((i + 1) mod length bs) e (e + base_size b'0)
      | None => Err IndexError end = Ok (b, cut) -> In b bs /\ forall x, In x cut -> In x rows).
  { destruct (nth_error bs _); [apply IH|discriminate]. }
  destruct (_ <? _); [|auto]. inv_bind E ps PS.
  destruct (some_promotion ps); [injection E as <- <-; split; auto; intros; eapply slice_in; eauto|auto].
Qed.

Lemma make_brackets_in : forall f eta ss bs b, make_brackets lg f eta ss = Ok bs -> In b bs ->
  exists s, In s ss /\ make_bracket lg f eta s = Ok b.
Proof.
  induction ss as [|s ss IH]; intros bs b E I; cbn [make_brackets] in E; [injection E as <-; contradiction|].
  inv_bind E b1 B1. inv_bind E bs1 BS. injection E as <-. destruct I as [<-|I]; [exists s; simpl; auto|].
  destruct (IH _ _ BS I) as (s' & S' & X). exists s'. simpl. auto.
Qed.

Lemma ask_view : forall k o f eta ts fresh draw q, ask argsort lg k o f eta ts fresh draw = Ok q ->
  exists lo hi tb b s ps, observe o lo hi ts = Ok tb /\
    (make_bracket lg f eta s = Ok b /\ match k with SuccessiveHalving s' | ASHA s' => s = s' | _ => True end) /\
    sound_promos (t_rows tb) ps /\ answers o f b (t_rows tb) ps fresh q.
Proof.
  intros k o f eta ts fresh draw q E. destruct k as [s|s| |]; unfold ask in E.
  - inv_bind E b B. unfold sh_ask in E. inv_bind E tb T. inv_bind E size SZ. inv_bind E cu C. inv_bind E ps P.
    exists (b_min b), (b_max b), tb, b, s, ps. split; [auto|]. split; [auto|]. split; [|apply get_config_inv; auto].
    eapply sound_subset; [|eapply sync_promotions_sound; eauto]. intros x I.
    eapply find_bracket_in; eauto. eapply drop_default_in; eauto.
  - inv_bind E b B. unfold asha_ask in E. inv_bind E tb T. inv_bind E ps P.
    exists (b_min b), (b_max b), tb, b, s, ps. split; [auto|]. split; [auto|]. split; [|apply get_config_inv; auto].
    eapply sound_subset; [|eapply async_sound; [|exact P]].
    + intros x I. apply drop_default_in in I. apply filter_In in I. tauto.
    + intros x I. apply drop_default_in in I. apply filter_In in I. destruct (is_nan (r_perf x)); simpl in *; tauto || (destruct I; discriminate) || auto.
  - inv_bind E bb B. destruct bb as [b0 bs]. unfold hb_ask in E. inv_bind E tb T. destruct bs as [|b1 bs1]; [discriminate|].
    set (bs := b1 :: bs1) in *. inv_bind E size SZ. inv_bind E bc C. destruct bc as [b cut]. inv_bind E ps P.
    destruct (find_hb_bracket_in _ _ _ _ _ _ _ _ _ _ _ C) as [IB IC].
    unfold hyperband_brackets in B. inv_bind B b0' B0. inv_bind B bs' BS. injection B as -> ->.
    destruct (make_brackets_in _ _ _ _ _ BS IB) as (s & _ & MB).
    exists (b_min b0), (b_max b0), tb, b, s, ps. split; [auto|]. split; [auto|]. split; [|apply get_config_inv; auto].
    eapply sound_subset; [|eapply sync_promotions_sound; eauto]. intros x I.
    apply IC. eapply drop_default_in; eauto.
  - inv_bind E bb B. destruct bb as [b0 bs]. unfold ahb_ask in E. inv_bind E tb T. inv_bind E ps P.
    destruct (nth_error bs draw) as [b|] eqn:D; [|discriminate]. apply nth_error_In in D.
    unfold hyperband_brackets in B. inv_bind B b0' B0. inv_bind B bs' BS. injection B as -> ->.
    destruct (make_brackets_in _ _ _ _ _ BS D) as (s & _ & MB).
    exists (b_min b0), (b_max b0), tb, b, s, ps. split; [auto|]. split; [auto|]. split; [|apply get_config_inv; auto].
    eapply sound_subset; [|eapply async_sound; [|exact P]].
    + intros x I. apply drop_default_in in I. apply filter_In in I. tauto.
    + intros x I. apply drop_default_in in I. apply filter_In in I. destruct (is_nan (r_perf x)); simpl in *; tauto || (destruct I; discriminate) || auto.
Qed.

Lemma history_wf : forall k o f eta ts, history (ask argsort lg k o f eta) ts -> wf ts.
Proof.
  intros k o f eta ts HI. induction HI as [|ts ts' fresh draw q HI IH P E|a t b x HI IH O X].
  - constructor; simpl; try contradiction; [constructor|]. exists 0. intros c. split; [intros (t & [] & _)|lia].
  - destruct (ask_view _ _ _ _ _ _ _ _ E) as (lo & hi & tb & b & s & ps & OB & _ & SP & AN).
    pose proof (wf_perm _ _ P IH) as W. destruct (wf_answer _ _ _ _ _ _ _ _ _ _ W OB SP AN) as [_ W'].
    eapply wf_perm; [|exact W']. constructor. apply Permutation_sym. auto.
  - apply wf_report; auto.
Qed.

Lemma ask_rung : forall k o f eta ts fresh draw q, never_above lg -> legal f -> 2 <= eta ->
  ask argsort lg k o f eta ts fresh draw = Ok q ->
  exists b s, make_bracket lg f eta s = Ok b /\ match k with SuccessiveHalving s' | ASHA s' => s = s' | _ => True end /\
    b_min b <= snd (q_id q) <= b_max b.
Proof.
  intros k o f eta ts fresh draw q NA LG E A.
  destruct (ask_view _ _ _ _ _ _ _ _ A) as (lo & hi & tb & b & s & ps & OB & (MB & KS) & SP & AN).
  exists b, s. split; auto. split; auto. pose proof (ladder_lemma _ _ _ _ _ NA LG E MB) as (LE & _).
  destruct AN as [(k' & c & y & v & K & _ & _ & QI & _)|(rung & _ & QI & _ & QR & _)]; rewrite QI; cbn [snd]; [lia|].
  rewrite QR. destruct (_ && _); lia.
Qed.

Lemma new_ids_lemma : forall k o f eta ts ts' fresh draw q,
  history (ask argsort lg k o f eta) ts -> Permutation ts ts' ->
  ask argsort lg k o f eta ts' fresh draw = Ok q -> ~ In (q_id q) (map st_id ts).
Proof.
  intros k o f eta ts ts' fresh draw q HI P E. pose proof (wf_perm _ _ P (history_wf _ _ _ _ _ HI)) as W.
  destruct (ask_view _ _ _ _ _ _ _ _ E) as (lo & hi & tb & b & s & ps & OB & _ & SP & AN).
  destruct (wf_answer _ _ _ _ _ _ _ _ _ _ W OB SP AN) as [NI _]. intros I. apply NI.
  eapply Permutation_in; [apply Permutation_map; exact P|auto].
Qed.

(** ** Budgets *)
Lemma rung_budget_of : forall f eta s b r (x : Q), never_above lg -> legal f -> 2 <= eta ->
  make_bracket lg f eta s = Ok b -> nget r (b_rungs b) = Some x -> rung_budget f eta (b_max b) r x.
Proof.
  intros f eta s b r x NA L E M N.
  destruct (make_bracket_inv _ _ _ _ _ NA L E M) as (_ & NR & R & _ & B1 & B2).
  rewrite R, fill_get in N. destruct (Nat.leb_spec s r) as [S1|]; [|discriminate].
  destruct (Nat.ltb_spec r (s + nrungs lg f eta s)) as [S2|]; [|discriminate]. cbn [andb] in N. injection N as <-.
  rewrite <- B2. split; [lia|]. pose proof (fold_div eta (b_max b - r) (f_upper f) E) as D. unfold qpow in D.
  set (y := fold_right _ _ _) in *. unfold cut. destruct (f_int f); [|exact D].
  assert (PW : (0 < inject_Z (Z.of_nat eta ^ Z.of_nat (b_max b - r)))%Q) by (apply (inject_pow_pos eta (b_max b - r)); auto).
  assert (YP : (0 <= y)%Q).
  { destruct L as (L1 & L2 & _). apply Qnot_lt_le. intros NEG.
    assert (y * inject_Z (Z.of_nat eta ^ Z.of_nat (b_max b - r)) < 0)%Q.
    { rewrite <- (Qmult_0_l (inject_Z (Z.of_nat eta ^ Z.of_nat (b_max b - r)))). apply Qmult_lt_compat_r; auto. }
    rewrite D in H0. lra. }
  rewrite py_int_floor by auto. destruct (floor_bounds y) as [F1 F2]. exists (Qfloor y). split; auto.
  split; rewrite <- D; [apply Qmult_le_compat_r; auto; lra|apply Qmult_lt_compat_r; auto].
Qed.

Lemma bracket_top : forall f eta s b L, exact lg -> legal f -> 2 <= eta -> make_bracket lg f eta s = Ok b ->
  whole_log eta (f_upper f / f_lower f) (Z.of_nat L) -> b_max b = L /\ b_min b = s /\ s <= L.
Proof.
  intros f eta s b L X LG E MB WL. destruct (brackets_lemma lg f eta X LG E) as (b0 & B0 & BM & BS & BA).
  destruct (Nat.le_gt_cases s (b_max b0)) as [LE|GT]; [|rewrite (BA s GT) in MB; discriminate].
  destruct (BS s LE) as (b' & MB' & MI & MX & _). rewrite MB in MB'. injection MB' as <-. rewrite MX.
  unfold stopping_rate_limit in BM.
  assert (WM : whole_log eta (f_upper f / f_lower f) (Z.of_nat (b_max b0))).
  { rewrite BM. apply X; auto. destruct LG as (L1 & L2 & _). apply ratio_ge_1; lra. }
  destruct WL as (_ & W1 & W2), WM as (_ & V1 & V2).
  assert (K : forall p r, (inject_Z (Z.of_nat eta ^ Z.of_nat p) < inject_Z (Z.of_nat eta ^ (Z.of_nat r + 1)))%Q -> p <= r).
  { intros p r Q. rewrite <- Zlt_Qlt in Q. apply Z.pow_lt_mono_r_iff in Q; lia. }
  assert (b_max b0 = L) by (apply Nat.le_antisymm; apply K; eapply Qle_lt_trans; eauto).
  split; auto. split; auto. lia.
Qed.

Lemma fid_lemma : forall k o f eta ts, exact lg -> legal f -> 2 <= eta ->
  history (ask argsort lg k o f eta) ts ->
  forall t L, whole_log eta (f_upper f / f_lower f) (Z.of_nat L) -> In t ts ->
    rung_budget f eta L (snd (st_id t)) (st_fid t).
Proof.
  intros k o f eta ts X LG E HI t L WL. revert t. induction HI as [|ts ts' fresh draw q HI IH P A|a t b x HI IH O XX].
  - intros t [].
  - intros t [<-|I]; [|auto]. cbn [stored st_id st_fid].
    destruct (ask_view _ _ _ _ _ _ _ _ A) as (lo & hi & tb & b & s & ps & OB & (MB & _) & SP & AN).
    destruct (bracket_top _ _ _ _ _ X LG E MB WL) as (bL & _).
    rewrite <- bL. destruct AN as [(k' & c & y & v & _ & _ & _ & QI & _ & _ & QF & _)|(rung & _ & QI & _ & _ & QF & _)];
      rewrite QI; cbn [snd]; eapply rung_budget_of; eauto; apply exact_below; auto.
  - intros t0 I. apply in_app_or in I. destruct I as [I|[<-|I]].
    + apply IH. apply in_or_app. auto.
    + apply (IH t). apply in_or_app. simpl. auto.
    + apply IH. apply in_or_app. simpl. auto.
Qed.

Lemma promo_lemma : forall k o f eta ts, history (ask argsort lg k o f eta) ts ->
  (forall t p, In t ts -> st_prev t = Some p ->
     st_id t = (fst p, S (snd p)) /\ exists u, In u ts /\ st_id u = p /\ finished u /\ st_hps u = st_hps t) /\
  (forall t u p, In t ts -> In u ts -> st_prev t = Some p -> st_prev u = Some p -> t = u) /\
  (forall t, In t ts -> st_prev t = None -> forall u, In u ts -> fst (st_id u) = fst (st_id t) -> u <> t ->
     snd (st_id t) < snd (st_id u)).
Proof.
  intros k o f eta ts HI. pose proof (history_wf _ _ _ _ _ HI) as W.
  assert (A : forall t p, In t ts -> st_prev t = Some p ->
     st_id t = (fst p, S (snd p)) /\ exists u, In u ts /\ st_id u = p /\ finished u /\ st_hps u = st_hps t).
  { intros t p I P. pose proof (w_prev _ W t I) as Q. rewrite P in Q. destruct Q as (r & u & Q1 & <- & Q3 & Q4 & Q5).
    split; auto. exists u. repeat split; auto. apply (w_hps _ W); auto. rewrite Q1, Q4. auto. }
  split; auto. split.
  - intros t u p I J P Q. destruct (A t p I P) as [X _], (A u p J Q) as [Y _].
    eapply same_id; eauto; [apply W|congruence].
  - intros t I P u J D N. pose proof (w_prev _ W t I) as Q. rewrite P in Q. specialize (Q u J D).
    destruct (Nat.eq_dec (snd (st_id t)) (snd (st_id u))) as [E|]; [|lia]. exfalso. apply N.
    eapply same_id; eauto; [apply W|]. destruct (st_id t), (st_id u); simpl in *; congruence.
Qed.
End Hist.
