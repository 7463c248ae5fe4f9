(** Proofs: examples of histories; what the table shows; evaluations without a value. *)
From Coq Require Import Lqa Sorted.
From Verif Require Export Sh_full_proofs.
Open Scope nat_scope.

Section Play.
Context {H : Type}.
Implicit Types (t u : strial H) (ts : list (strial H)) (x y : row H) (tb : table H).

Lemma report_spec : forall i (x : outcome) ts ts', report i x ts = Some ts' ->
  exists a t b, ts = a ++ t :: b /\ ts' = a ++ with_outcome t x :: b /\ st_out t = Pending /\ x <> Pending.
Proof.
  intros i x. induction ts as [|t ts IH]; intros ts' E; [discriminate|]. cbn [report] in E.
  destruct (_ && _).
  - destruct (st_out t) eqn:O; [|discriminate|discriminate]. exists [], t, ts. simpl.
    destruct x; [discriminate| |]; injection E as <-; repeat split; auto; discriminate.
  - destruct (report i x ts) as [l|] eqn:R; [|discriminate]. injection E as <-.
    destruct (IH l eq_refl) as (a & t' & b & -> & -> & O & X). exists (t :: a), t', b. auto.
Qed.
Lemma play_history : forall ask (es : list (@event H)) ts ts', history ask ts -> play ask es ts = Some ts' -> history ask ts'.
Proof.
  intros ask es. induction es as [|[h d|i x] es IH]; intros ts ts' HI E; cbn [play] in E.
  - congruence.
  - destruct (ask ts h d) as [q|] eqn:A; [|discriminate]. eapply IH; [|exact E]. eapply h_ask; eauto.
  - destruct (report i x ts) as [l|] eqn:R; [|discriminate]. destruct (report_spec _ _ _ _ R) as (a & t & b & -> & -> & O & X).
    eapply IH; [|exact E]. constructor; auto.
Qed.

(** ** The table of a history *)
Variable o : options.
Lemma get_loss_appears : forall (x : outcome) p, x <> Pending -> get_loss o x = Ok p -> appears o x p.
Proof.
  intros x p N E. unfold get_loss in E. destruct x as [|v|]; [congruence| |].
  - injection E as <-. left. exists v. split; auto. left. auto.
  - destruct (o_ignore_errors o) eqn:I.
    + injection E as <-. right. auto.
    + destruct (o_loss_on_error o) eqn:L; [|discriminate]. injection E as <-. left. eexists. split; [|reflexivity]. right. auto.
Qed.
Lemma content_lemma : forall ts lo hi tb, wf ts -> observe o lo hi ts = Ok tb ->
  (exists n, map r_id (t_rows tb) = seq 0 n) /\
  (forall t, In t ts -> exists x, In x (t_rows tb) /\ r_id x = fst (st_id t)) /\
  (forall x, In x (t_rows tb) -> settled_row o ts x \/ pending_row ts x).
Proof.
  intros ts lo hi tb W E. destruct (observe_spec _ _ _ _ _ E) as (_ & A & B). destruct (gap_rows _ _ _ _ _ W E) as (n & G & _).
  split; [eauto|]. split; auto. intros x I. destruct (B x I) as [[(t & T & ID & F & GL & HP & FI) TOP]|(PN & (t & T & ID & O) & C)].
  - left. split; auto. exists t. repeat split; auto. apply get_loss_appears; auto.
  - right. split; auto. exists t. split; auto. split; auto. split; auto. split.
    + assert (EX : exists u, In u ts /\ fst (st_id u) = r_id x /\ st_hps u = r_hps x).
      { destruct C as [(u & U & D & _ & HP & _)|(_ & u & U & D & HP & _)]; eauto. }
      destruct EX as (u & U & D & HP). rewrite <- HP. apply (w_hps _ W); auto. rewrite ID, D. auto.
    + intros u U D. pose proof (w_top _ W t u T U) as TP. rewrite ID in TP. apply TP; auto.
Qed.
End Play.

(** ** Evaluations without a value are not promoted *)
Section NoValue.
Context {H : Type}.
Implicit Types (t u : strial H) (ts : list (strial H)) (x y : row H) (tb : table H).
Variable argsort : list fl -> list nat.
Variable lg : Q -> nat -> Z.

Lemma pred_num : forall k o f eta ts, history (ask argsort lg k o f eta) ts ->
  forall t u p, In t ts -> In u ts -> st_prev t = Some p -> st_id u = p -> st_out u <> Loss FNaN.
Proof.
  intros k o f eta ts HI. induction HI as [|ts ts' fresh draw q HI IH P A|a t b z HI IH O XX].
  - intros t u p [].
  - pose proof (history_wf _ _ _ _ _ _ _ HI) as W0. pose proof (wf_perm _ _ P W0) as W.
    destruct (promo_lemma _ _ _ _ _ _ _ (h_ask _ _ _ _ _ _ HI P A)) as (PR & _).
    assert (NI : forall u, In u ts -> st_id u <> q_id q).
    { intros u U D. apply (new_ids_lemma _ _ _ _ _ _ _ _ _ _ _ HI P A). rewrite <- D. apply in_map. auto. }
    intros t u p [<-|I] [<-|J] PV D.
    + discriminate.
    + cbn [stored st_prev] in PV. destruct (ask_view _ _ _ _ _ _ _ _ _ _ A) as (lo & hi & tb & b & s & ps & OB & _ & SP & AN).
      destruct AN as [(k' & c & x & v & _ & PVS & NX & QI & _ & QP & _)|(rung & QP & _)]; [|congruence].
      destruct (observe_spec _ _ _ _ _ OB) as (So & _ & SH). destruct (gap_rows _ _ _ _ _ W OB) as (n & G & _).
      assert (XC : r_id x = c) by (eapply label_nth; eauto).
      destruct (SP k' (c :: v) c) as (y & Y1 & Y2 & Y3 & Y4); [apply nget_in; auto|simpl; auto|].
      assert (XY : x = y).
      { apply nth_error_In in NX. pose proof (in_find _ _ So NX). pose proof (in_find _ _ So Y1). congruence. }
      subst y. destruct (SH x Y1) as [[(t & T & ID & FT & GL & _) TOP]|[NAN _]]; [|rewrite NAN in Y4; discriminate].
      assert (u = t).
      { eapply (same_id ts'); eauto; [apply W|eapply Permutation_in; eauto|]. congruence. }
      subst u. intros L. rewrite L in GL. simpl in GL. injection GL as GL. rewrite <- GL in Y4. discriminate.
    + discriminate.
    + apply (IH t u p); auto.
  - destruct (promo_lemma _ _ _ _ _ _ _ HI) as (PR & _). pose proof (history_wf _ _ _ _ _ _ _ HI) as W.
    assert (OLD : forall u, In u (a ++ with_outcome t z :: b) -> exists u', In u' (a ++ t :: b) /\ st_id u' = st_id u /\ st_prev u' = st_prev u /\ (u' = u \/ u' = t)).
    { intros u I. apply in_app_or in I. destruct I as [I|[<-|I]].
      - exists u. repeat split; auto. apply in_or_app. auto.
      - exists t. repeat split; auto. apply in_or_app. simpl. auto.
      - exists u. repeat split; auto. apply in_or_app. simpl. auto. }
    intros t1 u p I J PV D. destruct (OLD t1 I) as (t1' & I' & D1 & P1 & _). destruct (OLD u J) as (u' & J' & D2 & P2 & C).
    destruct C as [<- | ->].
    + apply (IH t1' u' p); auto; congruence.
    + exfalso. destruct (PR t1' p I') as (_ & w & Wi & WD & WF & _); [congruence|].
      assert (w = t) by (eapply same_id; eauto; [apply W|congruence]). subst w. apply WF. auto.
Qed.

(** A trial with a higher evaluation of the same configuration is a predecessor. *)
Lemma has_successor : forall ts t u, wf ts -> In t ts -> In u ts -> fst (st_id t) = fst (st_id u) ->
  snd (st_id t) < snd (st_id u) -> exists w, In w ts /\ st_prev w = Some (st_id t).
Proof.
  intros ts t u W T. remember (snd (st_id u) - snd (st_id t)) as m eqn:M. revert u M.
  induction m as [|m IH]; intros u M U D L; [lia|]. pose proof (w_prev _ W u U) as PV. destruct (st_prev u) as [p|] eqn:PU.
  - destruct PV as (r & v & E1 & E2 & V & E3 & F). destruct (Nat.eq_dec (snd (st_id t)) r) as [ER|].
    + exists u. split; auto. rewrite PU. f_equal. rewrite E1 in D. simpl in D. destruct p, (st_id t); simpl in *. congruence.
    + rewrite E1 in *. cbn [fst snd] in *. apply (IH v); auto; rewrite E3; auto; lia.
  - specialize (PV t T). specialize (PV D). lia.
Qed.

Lemma stalled_lemma : forall k o f eta bs ts ts' fresh draw q c r, exact lg -> legal f -> 2 <= eta ->
  brackets_of lg k f eta bs ->
  history (ask argsort lg k o f eta) ts -> Permutation ts ts' ->
  ask argsort lg k o f eta ts' fresh draw = Ok q -> q_prev q = Some (c, r) ->
  forall n b s w t, nth_bracket bs (first_number o) n b s -> width b w -> s <= c < s + w ->
  In t ts -> s <= fst (st_id t) < s + w -> snd (st_id t) = r -> st_out t <> Loss FNaN.
Proof.
  intros k o f eta bs ts ts' fresh draw q c r X LG E BR HI P A PV n b s w t N WD CB T TB TR.
  pose proof (brackets_good _ _ _ _ _ X LG E BR) as GD.
  pose proof (inv_perm _ _ _ _ P (history_inv _ _ _ _ _ _ _ _ X LG E BR HI)) as IV. pose proof IV as (W & IR & _).
  pose proof (width_fun _ _ GD b w (nth_bracket_in _ _ _ _ _ N) WD) as ->.
  destruct (sync_view _ _ _ _ _ _ _ _ _ _ _ X LG E BR A) as (lo & hi & tb & b' & n' & s' & cu & ps & TT & FB & PS & GC).
  destruct (inv_answer o argsort bs eta GD _ _ _ _ _ _ _ _ _ _ _ _ IV TT FB PS GC) as [_ PR]. rewrite PV in PR.
  destruct PR as (sz & v & G & K & CB' & RD). pose proof FB as (N' & _).
  destruct (same_bracket _ _ GD _ _ _ _ _ _ _ c N N' CB CB') as (<- & <- & <-).
  destruct RD as (_ & _ & _ & NN & _). destruct (gap_rows _ _ _ _ _ W TT) as (m & GR & _).
  destruct (observe_spec _ _ _ _ _ TT) as (So & AL & SH).
  assert (T' : In t ts') by (eapply Permutation_in; eauto).
  destruct (AL t T') as (x & XI & XD). destruct (row_top o _ _ _ _ _ W TT XI) as [(t1 & T1 & ID1) TOP].
  specialize (TOP t T' (eq_sym XD)). destruct (Nat.eq_dec (r_rung x) r) as [ER|].
  - assert (XC : In x (at_rung (slice s (s + base_size b) (t_rows tb)) r)).
    { apply filter_In. split; [apply (slice_rows _ m); auto; split; auto; lia|apply Nat.eqb_eq; auto]. }
    specialize (NN x XC). destruct (SH x XI) as [[(t2 & T2 & ID2 & FT & GL & _) _]|[NAN _]]; [|rewrite NAN in NN; discriminate].
    assert (t = t2) by (eapply (same_id ts'); eauto; [apply W|]; destruct (st_id t); simpl in *; congruence). subst t2.
    intros L. rewrite L in GL. simpl in GL. injection GL as GL. rewrite <- GL in NN. discriminate.
  - destruct (has_successor ts' t t1 W T' T1) as (w & WI & WP); [rewrite ID1; auto|rewrite ID1; simpl; lia|].
    eapply (pred_num _ _ _ _ _ HI w t); eauto. eapply Permutation_in; [apply Permutation_sym; exact P|auto].
Qed.

(** ** ASHA with an early stopping rate *)
Lemma asha_lemma : forall o f eta s b ts (fresh : H) draw, never_above lg -> legal f -> 2 <= eta -> 1 <= s ->
  make_bracket lg f eta s = Ok b -> history (ask argsort lg (ASHA s) o f eta) ts ->
  ts = [] /\ ask argsort lg (ASHA s) o f eta ts fresh draw = Err KeyError.
Proof.
  intros o f eta s b ts fresh draw NA LG E S1 M HI.
  assert (A : forall (h : H) d, ask argsort lg (ASHA s) o f eta [] h d = Err KeyError).
  { intros h d. unfold ask. rewrite M. cbn [bind]. unfold asha_ask, observe. cbn [filter load_previous bind handle_pending fold_left t_rows dropna].
    destruct (make_bracket_inv _ _ _ _ _ NA LG E M) as (_ & NR & RG & _ & B1 & B2).
    destruct (ladder_lemma _ _ _ _ _ NA LG E M) as (LE & DOM & _).
    unfold async_promotions. destruct (b_max b) as [|m] eqn:BM; [lia|]. cbn [seq async_loop].
    assert (MEM : members (map fst (b_rungs b)) (drop_default o (@nil (row H))) 0 = Err KeyError).
    { unfold members. assert (Z : existsb (Nat.eqb 0) (map fst (b_rungs b)) = false).
      { destruct (existsb _ _) eqn:X; auto. apply existsb_exists in X. destruct X as (y & Y & EQ). apply Nat.eqb_eq in EQ. subst y.
        exfalso. assert (KEY : exists x : Q, nget 0 (b_rungs b) = Some x).
        { clear -Y. induction (b_rungs b) as [|[a z] l IH]; [contradiction|]. simpl in *. destruct a; [eauto|].
          destruct Y; [discriminate|auto]. }
        apply DOM in KEY. lia. }
      rewrite Z. unfold drop_default. destruct (_ && _); reflexivity. }
    rewrite MEM. reflexivity. }
  assert (NIL : ts = []).
  { induction HI as [|ts ts' h d q HI IH P Q|a t b' z HI IH O XX]; auto.
    - exfalso. rewrite IH in P. apply Permutation_nil in P. subst ts'. rewrite A in Q. discriminate.
    - exfalso. destruct a; discriminate. }
  subst ts. auto.
Qed.
End NoValue.

(** ** Insertion sort is a legal argsort *)
Lemma insert_val_perm : forall p l, Permutation (insert_val p l) (p :: l).
Proof.
  intros p l. induction l as [|a l IH]; simpl; auto. destruct (fl_ltb _ _); auto.
  etransitivity; [apply perm_skip; exact IH|apply perm_swap].
Qed.
Lemma fl_ltb_trans_neg : forall a b c, a <> FNaN -> b <> FNaN -> c <> FNaN -> fl_ltb b a = false -> fl_ltb c b = false -> fl_ltb c a = false.
Proof.
  intros [| | |a] [| | |b] [| | |c] NA NB NC A B; simpl in *; auto; try congruence.
  apply Z.ltb_ge. apply Z.ltb_ge in A, B. lia.
Qed.
Definition ordered (l : list (fl * nat)) : Prop := StronglySorted (fun p q => fl_ltb (fst q) (fst p) = false) l.
Lemma insert_val_ordered : forall p l, fst p <> FNaN -> (forall q, In q l -> fst q <> FNaN) -> ordered l -> ordered (insert_val p l).
Proof.
  intros p l NP NL O. induction O as [|a l O IH F]; simpl; [repeat constructor|].
  assert (NA : fst a <> FNaN) by (apply NL; simpl; auto).
  destruct (fl_ltb (fst p) (fst a)) eqn:LT.
  - constructor; [constructor; auto|]. assert (AP : fl_ltb (fst a) (fst p) = false).
    { destruct (fst a), (fst p); simpl in *; auto; try congruence. apply Z.ltb_ge. apply Z.ltb_lt in LT. lia. }
    constructor; auto. rewrite Forall_forall in *. intros q Q. apply (fl_ltb_trans_neg _ (fst a)); auto. apply NL. simpl. auto.
  - constructor; [apply IH; intros; apply NL; simpl; auto|]. rewrite Forall_forall in *. intros q Q.
    apply (Permutation_in _ (insert_val_perm p l)) in Q. destruct Q as [<-|Q]; auto.
Qed.
Lemma insertion_sorts : sorts insertion_argsort.
Proof.
  intros l NN. unfold insertion_argsort.
  assert (ACC : forall ps acc, (forall q, In q (ps ++ acc) -> fst q <> FNaN) -> ordered acc ->
     ordered (fold_left (fun acc p => insert_val p acc) ps acc) /\
     Permutation (fold_left (fun acc p => insert_val p acc) ps acc) (ps ++ acc)).
  { induction ps as [|p ps IH]; intros acc N O; simpl; [auto|]. destruct (IH (insert_val p acc)) as [A B].
    - intros q Q. apply N. apply in_app_or in Q. destruct Q as [Q|Q]; [simpl; right; apply in_or_app; auto|].
      apply (Permutation_in _ (insert_val_perm p acc)) in Q. destruct Q as [<-|Q]; simpl; auto. right. apply in_or_app. auto.
    - apply insert_val_ordered; auto; intros; apply N; simpl; auto. right. apply in_or_app. auto.
    - split; auto. etransitivity; [exact B|]. etransitivity; [apply Permutation_app_head, insert_val_perm|].
      apply Permutation_sym, Permutation_middle. }
  set (ps := combine l (seq 0 (length l))).
  assert (NTH : forall i v, In (v, i) ps -> nth_error l i = Some v).
  { unfold ps. assert (G : forall k i v, In (v, i) (combine l (seq k (length l))) -> k <= i /\ nth_error l (i - k) = Some v).
    { clear. induction l as [|a l IH]; intros k i v I; [contradiction|]. simpl in I. destruct I as [I|I].
      - injection I as <- <-. rewrite Nat.sub_diag. auto.
      - apply IH in I. destruct I as [L N]. split; [lia|]. replace (i - k) with (S (i - S k)) by lia. auto. }
    intros i v I. apply G in I. rewrite Nat.sub_0_r in I. tauto. }
  destruct (ACC ps []) as [O P].
  { intros q Q. rewrite app_nil_r in Q. destruct q as [v i]. apply NTH in Q. simpl. intros ->. apply NN. eapply nth_error_In; eauto. }
  { constructor. }
  set (r := fold_left _ ps []) in *. rewrite app_nil_r in P. split.
  - etransitivity; [apply Permutation_map; exact P|]. unfold ps. clear. generalize 0.
    induction l as [|a l IH]; intros k; simpl; auto.
  - intros i j a b x y L NA NB XA YB. rewrite nth_error_map in NA, NB.
    destruct (nth_error r i) as [[v1 a']|] eqn:R1; [|discriminate]. destruct (nth_error r j) as [[v2 b']|] eqn:R2; [|discriminate].
    simpl in NA, NB. injection NA as ->. injection NB as ->.
    assert (I1 : nth_error l a = Some v1) by (apply NTH; eapply Permutation_in; [exact P|eapply nth_error_In; eauto]).
    assert (I2 : nth_error l b = Some v2) by (apply NTH; eapply Permutation_in; [exact P|eapply nth_error_In; eauto]).
    assert (x = v1) by congruence. assert (y = v2) by congruence. subst x y. clear -O L R1 R2. revert i j L R1 R2.
    induction O as [|c r O IH F]; intros i j L R1 R2; [destruct i; discriminate|].
    destruct i as [|i], j as [|j]; try lia; simpl in *.
    + injection R1 as ->. rewrite Forall_forall in F. apply (F (v2, b)). eapply nth_error_In; eauto.
    + eapply (IH i j); eauto. lia.
Qed.
