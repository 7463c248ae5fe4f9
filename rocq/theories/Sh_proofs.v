(** Proofs: the table of observed configurations, ids and promotions. *)
From Coq Require Import Sorting.Sorted.
From Verif Require Export Sh_spec Ladder_proofs.
Open Scope nat_scope.

Lemma bind_ok : forall A B (x : res A) (f : A -> res B) b, bind x f = Ok b -> exists a, x = Ok a /\ f a = Ok b.
Proof. intros A B [a|e] f b E; simpl in E; [eauto|discriminate]. Qed.
Ltac inv_bind E x X := apply bind_ok in E; destruct E as (x & X & E).

Section Table.
Context {H : Type}.
Implicit Types (t u : strial H) (ts : list (strial H)) (x : row H) (l : list (row H)) (tb : table H).

(** ** Rows sorted by label *)
Definition sorted l : Prop := StronglySorted (fun a b => r_id a < r_id b) l.

Lemma insert_in : forall r l y, In y (insert_row r l) <-> y = r \/ In y l.
Proof.
  induction l as [|x l IH]; intros y; simpl; [intuition|].
  destruct (r_id r <? r_id x); simpl; [intuition|]. rewrite IH. intuition.
Qed.
Lemma find_none_notin : forall c l, find_row c l = None <-> forall x, In x l -> r_id x <> c.
Proof.
  intros c l. unfold find_row. split.
  - intros F x I E. apply find_none with (x := x) in F; auto. apply Nat.eqb_neq in F. auto.
  - intros F. induction l as [|y l IH]; simpl; auto.
    destruct (Nat.eqb_spec (r_id y) c) as [E|N]; [exfalso; apply (F y); simpl; auto|].
    apply IH. intros x I. apply F. simpl. auto.
Qed.
Lemma insert_sorted : forall r l, sorted l -> find_row (r_id r) l = None -> sorted (insert_row r l).
Proof.
  induction l as [|x l IH]; intros S F; simpl; [repeat constructor|].
  inversion S as [|? ? S1 F1]; subst.
  assert (N : r_id x <> r_id r) by (apply (proj1 (find_none_notin _ _) F); simpl; auto).
  assert (F' : find_row (r_id r) l = None).
  { apply find_none_notin. intros y I. apply (proj1 (find_none_notin _ _) F). simpl. auto. }
  destruct (Nat.ltb_spec (r_id r) (r_id x)).
  - constructor; auto. constructor; auto. rewrite Forall_forall in *. intros y I.
    specialize (F1 y I). simpl in *. lia.
  - constructor; [apply IH; auto|]. rewrite Forall_forall in *. intros y I.
    apply insert_in in I. destruct I as [->|I]; [lia|auto].
Qed.
Lemma find_in : forall c l x, find_row c l = Some x -> In x l /\ r_id x = c.
Proof. intros c l x F. apply find_some in F. destruct F as [A B]. apply Nat.eqb_eq in B. auto. Qed.
Lemma in_find : forall l x, sorted l -> In x l -> find_row (r_id x) l = Some x.
Proof.
  induction l as [|y l IH]; intros x S I; [contradiction|]. inversion S as [|? ? S1 F1]; subst.
  unfold find_row. simpl. destruct I as [->|I]; [rewrite Nat.eqb_refl; auto|].
  rewrite Forall_forall in F1. specialize (F1 x I). simpl in F1.
  destruct (Nat.eqb_spec (r_id y) (r_id x)); [lia|]. apply IH; auto.
Qed.
Lemma find_insert : forall r l c, sorted l -> find_row (r_id r) l = None ->
  find_row c (insert_row r l) = if Nat.eqb c (r_id r) then Some r else find_row c l.
Proof.
  intros r l c S F. pose proof (insert_sorted r l S F) as S'.
  destruct (Nat.eqb_spec c (r_id r)) as [->|N].
  - apply in_find; auto. apply insert_in. auto.
  - destruct (find_row c l) as [x|] eqn:E.
    + destruct (find_in _ _ _ E) as [A <-]. apply in_find; auto. apply insert_in. auto.
    + apply find_none_notin. intros y I. apply insert_in in I. destruct I as [->|I]; [auto|].
      apply (proj1 (find_none_notin _ _) E). auto.
Qed.
Lemma update_ids : forall c f l, (forall x, r_id x = c -> r_id (f x) = c) ->
  map r_id (update_row c f l) = map r_id l.
Proof.
  intros c f l F. unfold update_row. rewrite map_map. apply map_ext. intros x.
  destruct (Nat.eqb_spec (r_id x) c) as [E|]; auto. rewrite F; auto.
Qed.
Lemma sorted_ids : forall l l', map r_id l = map r_id l' -> sorted l -> sorted l'.
Proof.
  induction l as [|x l IH]; intros [|y l'] E S; simpl in E; try discriminate; [constructor|].
  injection E as E1 E2. inversion S as [|? ? S1 F1]; subst. constructor; [eapply IH; eauto|].
  rewrite Forall_forall in *. intros z I. apply (in_map r_id) in I. rewrite <- E2 in I.
  apply in_map_iff in I. destruct I as (w & W & I). specialize (F1 w I). simpl in F1. lia.
Qed.
Lemma find_update : forall c f l d, (forall x, r_id x = c -> r_id (f x) = c) ->
  find_row d (update_row c f l) =
  if Nat.eqb d c then option_map f (find_row c l) else find_row d l.
Proof.
  intros c f l d F. induction l as [|y l IH]; simpl; [destruct (d =? c); auto|].
  unfold find_row in *. simpl. destruct (Nat.eqb_spec (r_id y) c) as [E|N].
  - rewrite F by auto. destruct (Nat.eqb_spec c d) as [->|N2].
    + rewrite Nat.eqb_refl. simpl. rewrite ?E, ?Nat.eqb_refl. reflexivity.
    + replace (d =? c) with false in * by (symmetry; apply Nat.eqb_neq; auto).
      rewrite E. apply Nat.eqb_neq in N2. rewrite N2. exact IH.
  - destruct (Nat.eqb_spec (r_id y) d) as [E2|N2].
    + subst d. replace (r_id y =? c) with false by (symmetry; apply Nat.eqb_neq; auto). auto.
    + exact IH.
Qed.

(** ** The finished trials *)
Variable o : options.

(** what the table says about [c] after the finished trials [ts] *)
Definition loaded ts (r : option (row H)) (c : nat) : Prop :=
  match r with
  | None => forall t, In t ts -> fst (st_id t) <> c
  | Some x => r_id x = c /\
      (exists t, In t ts /\ st_id t = (c, r_rung x) /\ get_loss o (st_out t) = Ok (r_perf x) /\
         st_hps t = r_hps x /\ st_fid t = r_fid x) /\
      forall t, In t ts -> fst (st_id t) = c -> snd (st_id t) <= r_rung x
  end.

Lemma load_one_spec : forall lo hi tb t tb', load_one o lo hi tb t = Ok tb' -> sorted (t_rows tb) ->
  forall ts, (forall c, loaded ts (find_row c (t_rows tb)) c) ->
  sorted (t_rows tb') /\ (forall c, loaded (t :: ts) (find_row c (t_rows tb')) c).
Proof.
  intros lo hi tb t tb' E S ts L. unfold load_one in E. destruct (st_id t) as [c r] eqn:ID.
  inv_bind E p P. destruct ((lo <=? r) && (r <=? hi)); [|discriminate]. injection E as <-.
  assert (NEW : forall x, st_id t = (c, r_rung x) -> get_loss o (st_out t) = Ok (r_perf x) ->
     st_hps t = r_hps x -> st_fid t = r_fid x -> r_id x = c ->
     (forall u, In u ts -> fst (st_id u) = c -> snd (st_id u) <= r_rung x) -> loaded (t :: ts) (Some x) c).
  { intros x X1 X2 X3 X4 X5 X6. split; auto. split; [exists t; simpl; auto|].
    intros u [<-|I] E; [rewrite X1; simpl; lia|auto]. }
  assert (OLD : forall d v, d <> c -> loaded ts v d -> loaded (t :: ts) v d).
  { intros d [x|] N; simpl.
    - intros (A & (u & U1 & U2) & B). split; auto. split; [exists u; auto|].
      intros w [<-|I] W; [rewrite ID in W; simpl in W; congruence|auto].
    - intros A u [<-|I]; [rewrite ID; simpl; auto|auto]. }
  pose proof (L c) as LC. destruct (find_row c (t_rows tb)) as [x|] eqn:F.
  - destruct (Nat.ltb_spec (r_rung x) r) as [LT|GE]; simpl.
    + assert (FI : forall z : row H, r_id z = c -> r_id ((fun _ : row H => mkRow c (st_hps t) (st_fid t) r p) z) = c) by auto.
      split; [eapply sorted_ids; [symmetry; apply update_ids; exact FI|auto]|].
      intros d. rewrite find_update by exact FI. destruct (Nat.eqb_spec d c) as [->|N]; [|apply OLD; auto].
      rewrite F. simpl option_map. apply NEW; simpl; auto.
      intros u I U. destruct LC as (_ & _ & B). specialize (B u I U). lia.
    + split; auto. intros d. destruct (Nat.eq_dec d c) as [->|N]; [|apply OLD; auto].
      rewrite F. destruct LC as (A & (u & U1 & U2) & B). split; auto. split; [exists u; simpl; auto|].
      intros w [<-|I] W; [rewrite ID; simpl; lia|auto].
  - simpl. split; [apply insert_sorted; auto|]. intros d. rewrite find_insert by auto. simpl.
    destruct (Nat.eqb_spec d c) as [->|N]; [|apply OLD; auto].
    apply NEW; simpl; auto. intros u I U. exfalso. apply (LC u I U).
Qed.

Lemma load_previous_spec : forall lo hi ts tb tb' done, load_previous o lo hi tb ts = Ok tb' ->
  sorted (t_rows tb) -> (forall c, loaded done (find_row c (t_rows tb)) c) ->
  sorted (t_rows tb') /\ (forall c, loaded (rev ts ++ done) (find_row c (t_rows tb')) c).
Proof.
  induction ts as [|t ts IH]; intros tb tb' done E S L; simpl in E.
  - injection E as <-. auto.
  - inv_bind E tb1 T. destruct (load_one_spec _ _ _ _ _ T S done L) as [S1 L1].
    simpl. rewrite <- app_assoc. simpl. eapply IH; eauto.
Qed.

(** ** The pending trials *)
(** after the pending trials [ps], the finished ones having given [base] *)
Definition marked ps (base : nat -> option (row H)) (r : option (row H)) (c : nat) : Prop :=
  match r with
  | None => base c = None /\ forall t, In t ps -> fst (st_id t) <> c
  | Some x => r_id x = c /\
      (base c = Some x /\ (forall t, In t ps -> fst (st_id t) <> c) \/
       (exists t, In t ps /\ st_id t = (c, r_rung x)) /\ r_perf x = PNum FNaN /\
         (exists y, base c = Some y /\ r_hps x = r_hps y /\ r_fid x = r_fid y \/
          base c = None /\ exists t, In t ps /\ fst (st_id t) = c /\ st_hps t = r_hps x /\ st_fid t = r_fid x))
  end.

Lemma pending_one_spec : forall tb t base ps, sorted (t_rows tb) ->
  (forall c, marked ps base (find_row c (t_rows tb)) c) ->
  let tb' := pending_one o tb t in
  sorted (t_rows tb') /\ (forall c, marked (t :: ps) base (find_row c (t_rows tb')) c).
Proof.
  intros tb t base ps S M. unfold pending_one. destruct (st_id t) as [c r] eqn:ID.
  assert (OLD : forall d v, d <> c -> marked ps base v d -> marked (t :: ps) base v d).
  { intros d [x|] N; simpl.
    - intros (A & B). split; auto. destruct B as [[B1 B2]|((u & U1 & U2) & B2 & y & B3)].
      + left. split; auto. intros u [<-|I]; [rewrite ID; simpl; auto|auto].
      + right. split; [exists u; auto|]. split; auto. exists y.
        destruct B3 as [B3|(B3 & w & W & W')]; [auto|]. right. split; auto. exists w. auto.
    - intros [A B]. split; auto. intros u [<-|I]; [rewrite ID; simpl; auto|auto]. }
  pose proof (M c) as MC. destruct (find_row c (t_rows tb)) as [x|] eqn:F; simpl.
  - assert (FI : forall z : row H, r_id z = c -> r_id ((fun x => mkRow c (r_hps x) (r_fid x) r (PNum FNaN)) z) = c) by auto.
    split; [eapply sorted_ids; [symmetry; apply update_ids; exact FI|auto]|].
    intros d. rewrite find_update by exact FI. destruct (Nat.eqb_spec d c) as [->|N]; [|apply OLD; auto].
    rewrite F. simpl. split; auto. right. split; [exists t; auto|]. split; auto.
    destruct MC as (A & [[B1 B2]|(_ & _ & y & [(B3 & B4 & B5)|(B3 & w & W & W' & W'')])]).
    + exists x. left. auto.
    + exists y. left. auto.
    + exists y. right. split; auto. exists w. auto.
  - split; [apply insert_sorted; auto|]. intros d. rewrite find_insert by auto. simpl.
    destruct (Nat.eqb_spec d c) as [->|N]; [|apply OLD; auto]. simpl. split; auto. right.
    split; [exists t; auto|]. split; auto. exists (mkRow c (st_hps t) (st_fid t) r (PNum FNaN)).
    right. split; [apply MC|]. exists t. rewrite ID. simpl. auto 6.
Qed.

Lemma handle_pending_spec : forall ps tb base done, sorted (t_rows tb) ->
  (forall c, marked done base (find_row c (t_rows tb)) c) ->
  let tb' := handle_pending o tb ps in
  sorted (t_rows tb') /\ (forall c, marked (rev ps ++ done) base (find_row c (t_rows tb')) c).
Proof.
  induction ps as [|t ps IH]; intros tb base done S M; simpl; auto.
  destruct (pending_one_spec tb t base done S M) as [S1 M1]. rewrite <- app_assoc. simpl.
  apply IH; auto.
Qed.

(** ** The whole table *)
Definition shows ts (x : row H) : Prop :=
  (exists t, In t ts /\ st_id t = (r_id x, r_rung x) /\ finished t /\
     get_loss o (st_out t) = Ok (r_perf x) /\ st_hps t = r_hps x /\ st_fid t = r_fid x) /\
  (forall t, In t ts -> fst (st_id t) = r_id x -> finished t /\ snd (st_id t) <= r_rung x).
Definition shows_pending ts (x : row H) : Prop :=
  r_perf x = PNum FNaN /\ (exists t, In t ts /\ st_id t = (r_id x, r_rung x) /\ st_out t = Pending) /\
  ((exists u, In u ts /\ fst (st_id u) = r_id x /\ finished u /\ st_hps u = r_hps x /\ st_fid u = r_fid x /\
      forall w, In w ts -> finished w -> fst (st_id w) = r_id x -> snd (st_id w) <= snd (st_id u)) \/
   (forall w, In w ts -> fst (st_id w) = r_id x -> st_out w = Pending) /\
   exists u, In u ts /\ fst (st_id u) = r_id x /\ st_hps u = r_hps x /\ st_fid u = r_fid x).

Lemma observe_spec : forall lo hi ts tb, observe o lo hi ts = Ok tb ->
  sorted (t_rows tb) /\
  (forall t, In t ts -> exists x, In x (t_rows tb) /\ r_id x = fst (st_id t)) /\
  (forall x, In x (t_rows tb) -> shows ts x \/ shows_pending ts x).
Proof.
  intros lo hi ts tb E. unfold observe in E. inv_bind E tb1 L. injection E as <-.
  destruct (load_previous_spec _ _ _ _ _ [] L) as [S1 L1]; [constructor|intros c u []|].
  destruct (handle_pending_spec (filter is_pending ts) tb1 (fun c => find_row c (t_rows tb1)) [] S1)
    as [S2 M2].
  { intros c. destruct (find_row c (t_rows tb1)) as [x|] eqn:F; simpl; auto.
    split; [eapply find_in; eauto|]. left. auto. }
  rewrite app_nil_r in *.
  assert (PEND : forall t, In t (rev (filter is_pending ts)) <-> In t ts /\ st_out t = Pending).
  { intros t. rewrite <- in_rev, filter_In. unfold is_pending. destruct (st_out t); intuition discriminate. }
  assert (DONE : forall t, In t (rev (filter (fun t => negb (is_pending t)) ts)) <-> In t ts /\ finished t).
  { intros t. rewrite <- in_rev, filter_In. unfold is_pending, finished. destruct (st_out t); simpl; intuition discriminate. }
  split; auto. split.
  - intros t I. destruct (find_row (fst (st_id t)) (t_rows (handle_pending o tb1 (filter is_pending ts)))) as [x|] eqn:F.
    + destruct (find_in _ _ _ F) as [A B]. exists x. auto.
    + exfalso. pose proof (M2 (fst (st_id t))) as M. rewrite F in M. destruct M as [B M].
      pose proof (L1 (fst (st_id t))) as LL. rewrite B in LL. simpl in LL.
      destruct (st_out t) eqn:O.
      * apply (M t); [apply PEND; auto|auto].
      * apply (LL t); [apply DONE; unfold finished; rewrite O; split; [auto|discriminate]|auto].
      * apply (LL t); [apply DONE; unfold finished; rewrite O; split; [auto|discriminate]|auto].
  - intros x I. pose proof (in_find _ _ S2 I) as F. pose proof (M2 (r_id x)) as M. rewrite F in M.
    destruct M as (_ & [[B M]|((t & T & ID) & P & y & Y)]).
    + left. pose proof (L1 (r_id x)) as LL. rewrite B in LL. destruct LL as (_ & (t & T1 & T2 & T3 & T4 & T5) & LL).
      apply DONE in T1. split; [exists t; tauto|]. intros u U1 U2.
      assert (finished u) by (intro; apply (M u); [apply PEND; auto|auto]).
      split; auto. apply LL; [apply DONE; auto|auto].
    + right. split; auto. apply PEND in T. split; [exists t; tauto|].
      pose proof (L1 (r_id x)) as LL. destruct Y as [(B & Y1 & Y2)|(B & u & U1 & U2 & U3 & U4)].
      * left. rewrite B in LL. destruct LL as (_ & (u & T1 & T2 & T3 & T4 & T5) & LL).
        apply DONE in T1. exists u. split; [tauto|]. split; [rewrite T2; auto|]. split; [tauto|].
        split; [congruence|]. split; [congruence|]. intros w W1 W2 W3. rewrite T2. simpl.
        apply LL; [apply DONE; auto|auto].
      * right. rewrite B in LL. simpl in LL. apply PEND in U1. split; [|exists u; tauto].
        intros w W1 W2. destruct (st_out w) eqn:O; auto; exfalso; apply (LL w); auto; apply DONE;
          unfold finished; rewrite O; split; auto; discriminate.
Qed.
End Table.

(** ** Positions are labels when the labels have no gaps *)
Section Gap.
Context {H : Type}.
Implicit Types (x : row H) (l : list (row H)).

(** strictly increasing from [k], without gaps up to [k + length] *)
Lemma crowded : forall l m n, sorted l -> (forall x, In x l -> m < r_id x < n) -> length l <= n - S m.
Proof.
  induction l as [|z l IH]; intros m n So B; simpl; [lia|].
  inversion So as [|? ? S1 F1]; subst. rewrite Forall_forall in F1.
  assert (m < r_id z < n) by (apply B; simpl; auto).
  assert (length l <= n - S (r_id z)).
  { apply IH; auto. intros x I. split; [apply F1; auto|apply B; simpl; auto]. }
  lia.
Qed.
Lemma position_label_from : forall l k, sorted l -> (forall x, In x l -> k <= r_id x < k + length l) ->
  map r_id l = seq k (length l).
Proof.
  induction l as [|y l IH]; intros k So B; simpl; auto. inversion So as [|? ? S1 F1]; subst.
  rewrite Forall_forall in F1.
  assert (E : r_id y = k).
  { assert (K : k <= r_id y) by (apply B; simpl; auto).
    destruct (Nat.eq_dec (r_id y) k); auto. exfalso.
    assert (A := crowded (y :: l) k (k + length (y :: l)) So). simpl length in *.
    assert (S (length l) <= k + S (length l) - S k).
    { apply A. intros x I. specialize (B x I). split; [|lia].
      destruct I as [<-|I]; [lia|]. specialize (F1 x I). simpl in F1. lia. }
    lia. }
  rewrite E. f_equal. apply IH; auto. intros x I. specialize (F1 x I). simpl in F1.
  assert (B' := B x (or_intror I)). simpl in B'. lia.
Qed.
(** the labels are exactly the numbers below [n] *)
Lemma position_label : forall l n, sorted l -> (forall c, (exists x, In x l /\ r_id x = c) <-> c < n) ->
  map r_id l = seq 0 n.
Proof.
  intros l n So B.
  assert (L : length l = n).
  { assert (ND : NoDup (map r_id l)).
    { clear B. induction So as [|x l So IH F]; simpl; constructor; auto.
      intros I. apply in_map_iff in I. destruct I as (y & E & I). rewrite Forall_forall in F.
      specialize (F y I). simpl in F. lia. }
    rewrite <- (map_length r_id l), <- (seq_length n 0). apply Permutation_length.
    apply NoDup_Permutation; auto; [apply seq_NoDup|]. intros c. rewrite in_seq, in_map_iff.
    split.
    - intros (x & E & I). assert (c < n) by (apply B; eauto). lia.
    - intros I. destruct (proj2 (B c)) as (x & X & E); [lia|]. eauto. }
  rewrite <- L. apply position_label_from; auto. intros x I.
  assert (r_id x < n) by (apply B; eauto). lia.
Qed.
Lemma label_nth : forall l n c x, map r_id l = seq 0 n -> nth_error l c = Some x -> r_id x = c.
Proof.
  intros l n c x E N. assert (N' : nth_error (map r_id l) c = Some (r_id x)) by (apply map_nth_error; auto).
  rewrite E in N'. assert (L : c < n).
  { rewrite <- (seq_length n 0). apply nth_error_Some. congruence. }
  rewrite (nth_error_nth' _ 0) in N' by (rewrite seq_length; auto). rewrite seq_nth in N' by auto.
  simpl in N'. congruence.
Qed.
End Gap.

(** ** The proposal *)
Section Ask.
Context {H : Type}.
Implicit Types (t u : strial H) (ts : list (strial H)) (x : row H) (l rows : list (row H)) (tb : table H).
Variable argsort : list fl -> list nat.

(** candidates are rows of that rung with a performance *)
Definition sound_promos rows (ps : promotions) : Prop :=
  forall k v c, In (k, v) ps -> In c v ->
  exists x, In x rows /\ r_id x = c /\ r_rung x = k /\ is_nan (r_perf x) = false.

Lemma pick_in : forall ids idx c, In c (pick ids idx) -> In c ids.
Proof.
  intros ids idx c I. unfold pick in I. apply in_flat_map in I. destruct I as (i & _ & I).
  destruct (nth_error ids i) as [y|] eqn:E; [|contradiction]. destruct I as [<-|[]].
  eapply nth_error_In; eauto.
Qed.
Lemma firstn_in : forall A n (l : list A) (x : A), In x (firstn n l) -> In x l.
Proof. intros A n l x I. rewrite <- (firstn_skipn n l). apply in_or_app. auto. Qed.
Lemma skipn_in : forall A n (l : list A) (x : A), In x (skipn n l) -> In x l.
Proof. intros A n l x I. rewrite <- (firstn_skipn n l). apply in_or_app. auto. Qed.
Lemma slice_to_in : forall A k (l : list A) (x : A), In x (slice_to k l) -> In x l.
Proof. intros A k l x I. unfold slice_to in I. destruct (k <? 0)%Z; eapply firstn_in; eauto. Qed.
Lemma slice_in : forall A s e (l : list A) (x : A), In x (slice s e l) -> In x l.
Proof. intros A s e l x I. unfold slice in I. eapply skipn_in, firstn_in; eauto. Qed.
Lemma drop_default_in : forall o l x, In x (drop_default o l) -> In x l.
Proof. intros o l x I. unfold drop_default in I. destruct (_ && _); auto. apply filter_In in I. tauto. Qed.

Lemma members_in : forall keys l k ms c, members keys l k = Ok ms -> In c (map fst ms) ->
  exists x, In x l /\ r_id x = c /\ r_rung x = k.
Proof.
  intros keys l k ms c E I. unfold members in E. destruct (_ || _); [|discriminate]. injection E as <-.
  rewrite map_map in I. apply in_map_iff in I. destruct I as (x & X & I). apply filter_In in I.
  destruct I as [I K]. apply Nat.eqb_eq in K. exists x. auto.
Qed.
Lemma members_no_nan : forall keys l k ms, members keys l k = Ok ms -> length (filter is_nan (map snd ms)) = 0 ->
  forall x, In x l -> r_rung x = k -> is_nan (r_perf x) = false.
Proof.
  intros keys l k ms E N x I K. unfold members in E. destruct (_ || _); [|discriminate]. injection E as <-.
  destruct (is_nan (r_perf x)) eqn:Z; auto. exfalso.
  assert (J : In (r_perf x) (filter is_nan (map snd (map (fun r => (r_id r, r_perf r))
     (filter (fun r => r_rung r =? k) l))))).
  { apply filter_In. split; auto. rewrite map_map. simpl. apply in_map_iff. exists x. split; auto.
    apply filter_In. rewrite K, Nat.eqb_refl. auto. }
  destruct (filter _ _) in J, N; simpl in *; [contradiction|discriminate].
Qed.
Lemma count_nan_ok : forall obj (ps : list perf) n, count_nan obj ps = Ok n -> n = length (filter is_nan ps).
Proof. intros obj ps n E. unfold count_nan in E. destruct (_ && _); congruence. Qed.

Lemma set_promo_in : forall k v ps k' v', In (k', v') (set_promo k v ps) -> k' = k /\ v' = v \/ In (k', v') ps.
Proof.
  induction ps as [|[a b] ps IH]; intros k' v' I; simpl in I.
  - destruct I as [E|[]]. injection E as -> ->. auto.
  - destruct (Nat.eqb k a) eqn:E.
    + destruct I as [I|I]; [injection I as -> ->; auto|right; simpl; auto].
    + destruct I as [I|I]; [right; simpl; auto|]. destruct (IH _ _ I); [auto|right; simpl; auto].
Qed.

Lemma sync_sound : forall eta sizes mx obj l keys rungs total acc ps,
  sync_loop argsort eta sizes mx (members keys l) obj rungs total acc = Ok ps ->
  sound_promos l acc -> sound_promos l ps.
Proof.
  intros eta sizes mx obj l keys rungs. induction rungs as [|k rest IH]; intros total acc ps E A; cbn [sync_loop] in E.
  - injection E as <-. auto.
  - inv_bind E ms M. inv_bind E size SZ. destruct (size <=? total + length ms); [|eapply IH; eauto].
    inv_bind E n CN. apply count_nan_ok in CN. destruct (Nat.ltb_spec 0 n); [injection E as <-; auto|].
    destruct (k =? mx); [eapply IH; eauto|]. destruct ms as [|m0 ms0]; [discriminate|].
    set (ms := m0 :: ms0) in *. inv_bind E idx IDX. eapply IH; [exact E|].
    intros k' v' c I C. apply set_promo_in in I. destruct I as [[-> ->]|I]; [|eapply A; eauto].
    apply pick_in in C. destruct (members_in _ _ _ _ _ M C) as (x & X1 & X2 & X3).
    exists x. repeat split; auto. eapply members_no_nan; eauto. lia.
Qed.
Lemma sync_promotions_sound : forall eta b obj l keys ps,
  sync_promotions argsort eta b (members keys l) obj = Ok ps -> sound_promos l ps.
Proof.
  intros eta b obj l keys ps E. eapply sync_sound; [exact E|]. intros k v c I C.
  apply in_map_iff in I. destruct I as (e & X & _). injection X as <- <-. contradiction.
Qed.
Lemma async_sound : forall eta l keys rungs ps,
  (forall x, In x l -> is_nan (r_perf x) = false) ->
  async_loop argsort eta (members keys l) rungs = Ok ps -> sound_promos l ps.
Proof.
  intros eta l keys rungs. induction rungs as [|k rest IH]; intros ps NN E; cbn [async_loop] in E.
  - injection E as <-. intros k v c [].
  - inv_bind E ms M. inv_bind E idx IDX. inv_bind E qs QS. injection E as <-.
    intros k' v' c [I|I] C; [|eapply IH; eauto]. injection I as <- <-.
    apply firstn_in, pick_in in C. destruct (members_in _ _ _ _ _ M C) as (x & X1 & X2 & X3).
    exists x. auto.
Qed.
Lemma sound_subset : forall l rows ps, (forall x, In x l -> In x rows) -> sound_promos l ps -> sound_promos rows ps.
Proof. intros l rows ps S P k v c I C. destruct (P k v c I C) as (x & X & Y). exists x. auto. Qed.

Lemma nget_in : forall A k (l : list (nat * A)) v, nget k l = Some v -> In (k, v) l.
Proof.
  induction l as [|[a b] l IH]; intros v E; simpl in E; [discriminate|].
  destruct (Nat.eqb_spec k a) as [->|]; [injection E as ->; simpl; auto|simpl; auto].
Qed.
Lemma ngetitem_ok : forall A k (l : list (nat * A)) v, ngetitem k l = Ok v -> nget k l = Some v.
Proof. intros A k l v E. unfold ngetitem in E. destruct (nget k l); congruence. Qed.

Lemma is_promotable_some : forall ps rungs k c, is_promotable ps rungs = Ok (Some (k, c)) ->
  In k rungs /\ exists v, nget k ps = Some (c :: v).
Proof.
  intros ps rungs k c. induction rungs as [|a rest IH]; intros E; cbn [is_promotable] in E; [discriminate|].
  inv_bind E l L. apply ngetitem_ok in L. destruct l as [|y l]; [destruct (IH E); simpl; auto|].
  injection E as <- <-. split; [simpl; auto|exists l; auto].
Qed.

(** What an answer looks like: [rows] the whole table, [b] the bracket run. *)
Definition answers (o : options) (f : fidelity) (b : bracket) rows (ps : promotions) (fresh : H) (q : proposal H) : Prop :=
  (exists k c x v, b_min b <= k < b_max b /\ nget k ps = Some (c :: v) /\ nth_error rows c = Some x /\
     q_id q = (r_id x, S k) /\ q_hps q = r_hps x /\ q_prev q = Some (r_id x, k) /\
     nget (S k) (b_rungs b) = Some (q_fid q) /\
     (forall k' v', k < k' < b_max b -> nget k' ps = Some v' -> v' = [])) \/
  (exists rung, q_prev q = None /\ q_id q = (new_id rows, rung) /\ q_hps q = fresh /\
     rung = (if o_use_priors o && o_default_first o && match rows with [] => true | _ => false end
                && o_default_at_target o then b_max b else b_min b) /\
     nget rung (b_rungs b) = Some (q_fid q) /\
     (forall k' v', b_min b <= k' < b_max b -> nget k' ps = Some v' -> v' = [])).

Lemma is_promotable_higher : forall ps rungs k c, is_promotable ps rungs = Ok (Some (k, c)) ->
  exists a b, rungs = a ++ k :: b /\ forall k' v', In k' a -> nget k' ps = Some v' -> v' = [].
Proof.
  intros ps rungs k c. induction rungs as [|r rest IH]; intros E; cbn [is_promotable] in E; [discriminate|].
  inv_bind E l L. apply ngetitem_ok in L. destruct l as [|y l].
  - destruct (IH E) as (a & b & -> & A). exists (r :: a), b. split; auto.
    intros k' v' [<-|I] N; [congruence|eauto].
  - injection E as <- <-. exists [], rest. split; auto. intros k' v' [].
Qed.
Lemma is_promotable_none : forall ps rungs, is_promotable ps rungs = Ok None ->
  forall k v, In k rungs -> nget k ps = Some v -> v = [].
Proof.
  intros ps rungs. induction rungs as [|r rest IH]; intros E k v I N; [contradiction|]; cbn [is_promotable] in E.
  inv_bind E l L. apply ngetitem_ok in L. destruct l as [|y l]; [|discriminate].
  destruct I as [<-|I]; [congruence|eauto].
Qed.
Lemma set_fidelity_ok : forall f (x y : Q), set_fidelity f x = Ok y -> y = x.
Proof. intros f x y E. unfold set_fidelity in E. destruct (_ && _); congruence. Qed.

Lemma rev_seq_higher : forall lo n a k b, rev (seq lo n) = a ++ k :: b ->
  forall k', k < k' < lo + n -> In k' a.
Proof.
  intros lo n a k b E k' K.
  assert (I : In k (rev (seq lo n))) by (rewrite E; apply in_or_app; simpl; auto).
  assert (I' : In k' (rev (seq lo n))).
  { apply in_rev in I. apply in_seq in I. apply -> in_rev. apply in_seq. lia. }
  rewrite E in I'. apply in_app_or in I'. destruct I' as [I'|[I'|I']]; [auto|lia|]. exfalso.
  revert E I'. clear I. revert a. induction n as [|n IH]; intros a E I'.
  - simpl in E. destruct a; discriminate.
  - rewrite seq_S, rev_app_distr in E. simpl in E. destruct a as [|y a]; simpl in E.
    + injection E as <- <-. lia.
    + injection E as E1 E. destruct (Nat.eq_dec k' (lo + n)) as [->|].
      * assert (In (lo + n) (rev (seq lo n))) by (rewrite E; apply in_or_app; right; simpl; auto).
        apply in_rev, in_seq in H0. lia.
      * eapply IH; eauto. lia.
Qed.

Lemma get_config_inv : forall o f b rows ps fresh q,
  get_config_and_ids o f b rows ps fresh = Ok q -> answers o f b rows ps fresh q.
Proof.
  intros o f b rows ps fresh q E. unfold get_config_and_ids in E. inv_bind E p P. destruct p as [[k c]|].
  - left. destruct (nth_error rows c) as [x|] eqn:X; [|discriminate].
    inv_bind E budget B. inv_bind E fid F. apply set_fidelity_ok in F. subst fid. injection E as <-.
    apply ngetitem_ok in B. destruct (is_promotable_some _ _ _ _ P) as [I [v V]].
    apply in_rev, in_seq in I. exists k, c, x, v. simpl. repeat (split; [auto; lia|]).
    intros k' v' K N. destruct (is_promotable_higher _ _ _ _ P) as (a & r & R & A).
    apply (A k' v'); auto. eapply rev_seq_higher; eauto. lia.
  - right. inv_bind E budget B. inv_bind E fid F. apply set_fidelity_ok in F. subst fid. injection E as <-.
    apply ngetitem_ok in B. eexists. simpl. split; [auto|]. split; [reflexivity|]. split; [auto|]. split; [reflexivity|].
    split; [exact B|]. intros k' v' K N. eapply is_promotable_none; eauto. apply -> in_rev. apply in_seq. lia.
Qed.
End Ask.
