(** Proofs about pruning. *)
From Verif Require Import Py Prune_model Prune_spec.
From Coq Require Import String.
Local Open Scope nat_scope.
Local Open Scope list_scope.
Local Notation length := List.length.

Lemma filter_filter {A} (f h : A -> bool) l : filter f (filter h l) = filter (fun x => h x && f x) l.
Proof. induction l as [|x l IH]; cbn; [reflexivity|]. destruct (h x); cbn; [destruct (f x); rewrite IH; reflexivity|exact IH]. Qed.
Lemma is_nil_iff {A} (l : list A) : is_nil l = true <-> l = [].
Proof. destruct l; cbn; split; congruence. Qed.
Lemma is_nil_false {A} (l : list A) : is_nil l = false <-> exists x, In x l.
Proof. destruct l as [|x l]; cbn; split; try congruence; try tauto; [intros [x []]|exists x; auto]. Qed.
Lemma has_node_iff g n : has_node g n = true <-> In n (nodes g).
Proof. unfold has_node. rewrite existsb_exists. split; [intros (x & X & E); apply Z.eqb_eq in E; congruence|intros H; exists n; split; [exact H|apply Z.eqb_refl]]. Qed.
Lemma preds_iff g n u : In u (preds g n) <-> edge g u n.
Proof.
  unfold preds, edge. rewrite in_map_iff. split.
  - intros ([a b] & E & F). apply filter_In in F. destruct F as [F1 F2]. cbn in *. apply Z.eqb_eq in F2. congruence.
  - intros H. exists (u, n). split; [reflexivity|]. apply filter_In. split; [exact H|apply Z.eqb_refl].
Qed.
Lemma succs_iff g n v : In v (succs g n) <-> edge g n v.
Proof.
  unfold succs, edge. rewrite in_map_iff. split.
  - intros ([a b] & E & F). apply filter_In in F. destruct F as [F1 F2]. cbn in *. apply Z.eqb_eq in F2. congruence.
  - intros H. exists (n, v). split; [reflexivity|]. apply filter_In. split; [exact H|apply Z.eqb_refl].
Qed.
Lemma no_preds g n : is_nil (preds g n) = true <-> forall u, ~ edge g u n.
Proof.
  split.
  - intros E u H. apply is_nil_iff in E. apply preds_iff in H. rewrite E in H. destruct H.
  - intros H. destruct (is_nil (preds g n)) eqn:E; [reflexivity|]. apply is_nil_false in E. destruct E as (u & U). apply preds_iff in U. destruct (H u U).
Qed.
Lemma no_succs g n : is_nil (succs g n) = true <-> forall v, ~ edge g n v.
Proof.
  split.
  - intros E u H. apply is_nil_iff in E. apply succs_iff in H. rewrite E in H. destruct H.
  - intros H. destruct (is_nil (succs g n)) eqn:E; [reflexivity|]. apply is_nil_false in E. destruct E as (u & U). apply succs_iff in U. destruct (H u U).
Qed.

(** [g] without the nodes that are not in [S] *)
Definition restrict (S : Z -> bool) (g : graph) : graph := mkGraph (filter S (nodes g)) (filter (fun e => S (fst e) && S (snd e)) (edges g)).
Definition without (S : Z -> bool) (n : Z) : Z -> bool := fun m => S m && negb (Z.eqb m n).
Lemma remove_restrict S g n : remove_node (restrict S g) n = restrict (without S n) g.
Proof.
  unfold remove_node, restrict, without. cbn [nodes edges]. rewrite !filter_filter. f_equal. apply filter_ext. intros [u v]. cbn [fst snd].
  destruct (S u), (S v), (Z.eqb u n), (Z.eqb v n); reflexivity.
Qed.
Lemma in_restrict S g n : In n (nodes (restrict S g)) <-> In n (nodes g) /\ S n = true.
Proof. unfold restrict. cbn [nodes]. apply filter_In. Qed.
Lemma edge_restrict S g u v : edge (restrict S g) u v <-> edge g u v /\ S u = true /\ S v = true.
Proof. unfold edge, restrict. cbn [edges]. rewrite filter_In. cbn [fst snd]. rewrite andb_true_iff. reflexivity. Qed.
Lemma restrict_all g : restrict (fun _ => true) g = g.
Proof.
  destruct g as [n e]. unfold restrict. cbn [nodes edges]. f_equal; [induction n as [|x n IH]; cbn; [reflexivity|rewrite IH; reflexivity]|].
  induction e as [|x e IH]; [reflexivity|]. cbn [filter andb]. f_equal. exact IH.
Qed.
Lemma without_iff S n m : without S n m = true <-> S m = true /\ m <> n.
Proof. unfold without. rewrite andb_true_iff, negb_true_iff, Z.eqb_neq. reflexivity. Qed.

Lemma filter_le_all (S : Z -> bool) l : length (filter S l) <= length l.
Proof. induction l as [|x l IH]; cbn; [lia|]. destruct (S x); cbn; lia. Qed.

Section Prune.
  Variable g : graph.
  Hypothesis P : proper g.
  Notation E := (edge g).
  Notation size S := (length (nodes (restrict S g))).

  Lemma filter_le (S T : Z -> bool) l : (forall x, T x = true -> S x = true) -> length (filter T l) <= length (filter S l).
  Proof. intros H. induction l as [|x l IH]; cbn; [lia|]. destruct (T x) eqn:TX; [rewrite (H x TX); cbn; lia|]. destruct (S x); cbn; lia. Qed.
  Lemma filter_lt (S : Z -> bool) n l : In n l -> S n = true -> length (filter (without S n) l) < length (filter S l).
  Proof.
    intros I H. induction l as [|x l IH]; [destruct I|]. destruct I as [->|I].
    - cbn [filter]. replace (without S n n) with false by (unfold without; rewrite Z.eqb_refl, andb_false_r; reflexivity). rewrite H. cbn [length].
      assert (X := filter_le S (without S n) l (fun x X => proj1 (proj1 (without_iff S n x) X))). lia.
    - cbn [filter]. specialize (IH I). destruct (without S n x) eqn:W; [apply without_iff in W; destruct W as [W _]; rewrite W; cbn [length]; lia|]. destruct (S x); cbn [length]; lia.
  Qed.

  (** What one backtracking does to the nodes that are left *)
  Definition backtracked (S S' : Z -> bool) : Prop :=
    (forall m, S' m = true -> S m = true) /\
    (forall m, S' m = true -> (exists v, E m v /\ S v = true) -> exists v, E m v /\ S' v = true) /\
    (forall p m, S' m = true -> E p m -> S p = true -> S' p = true).
  (** The nodes dropped satisfy [D], if those without a successor left do *)
  Variable D : Z -> Prop.
  Hypothesis dead_end : forall S n, (forall m, S m = false -> D m) -> (forall v, E n v -> S v = false) -> (exists v, E n v) -> D n.

  Lemma backtrack_p : forall fuel S n, size S <= fuel -> In n (nodes g) -> S n = true -> (forall v, E n v -> S v = false) -> (forall m, S m = false -> D m) -> D n ->
    exists S', backtrack_remove fuel (restrict S g) n = Ok (restrict S' g) /\ S' n = false /\ backtracked S S' /\ (forall m, S' m = false -> D m).
  Proof.
    induction fuel as [|k IH]; intros S n F I L N O DN.
    - exfalso. assert (X : In n (nodes (restrict S g))) by (apply in_restrict; auto). destruct (nodes (restrict S g)); [destruct X|cbn in F; lia].
    - cbn [backtrack_remove]. rewrite remove_restrict.
      assert (B0 : forall l S0, size S0 <= k -> S0 n = false -> (forall m, S0 m = true -> S m = true) ->
        (forall m, S0 m = true -> (exists v, E m v /\ S v = true) -> In m l \/ exists v, E m v /\ S0 v = true) ->
        (forall p m, S0 m = true -> E p m -> S p = true -> S0 p = true) -> (forall m, S0 m = false -> D m) -> (forall m, In m l -> exists v, E m v) ->
        exists S', fold_left (fun rg u => bind rg (fun g0 => if negb (has_node g0 u) then Ok g0 else if negb (is_nil (succs g0 u)) then Ok g0 else backtrack_remove k g0 u)) l (Ok (restrict S0 g)) = Ok (restrict S' g)
          /\ S' n = false /\ backtracked S S' /\ (forall m, S' m = false -> D m)).
      { induction l as [|u l IHl]; intros S0 F0 N0 M0 A0 C0 D0 L0.
        - exists S0. split; [reflexivity|]. split; [exact N0|]. split; [|exact D0]. split; [exact M0|]. split; [|exact C0]. intros m Sm X. destruct (A0 m Sm X) as [[]|Y]. exact Y.
        - cbn [fold_left bind]. destruct (has_node (restrict S0 g) u) eqn:HU; cbn [negb].
          + apply has_node_iff, in_restrict in HU. destruct HU as [UI US]. destruct (is_nil (succs (restrict S0 g) u)) eqn:SU; cbn [negb].
            * assert (SU' : forall v, E u v -> S0 v = false).
              { intros v EV. destruct (S0 v) eqn:SV; [|reflexivity]. rewrite no_succs in SU. destruct (SU v). apply edge_restrict. auto. }
              destruct (IH S0 u F0 UI US SU' D0) as (S1 & E1 & U1 & (M1 & A1 & C1) & D1).
              { apply (dead_end S0 u D0 SU'). apply L0. left. reflexivity. }
              rewrite E1. apply IHl.
              -- assert (X := filter_le S0 S1 (nodes g) M1). unfold restrict in *. cbn [nodes] in *. lia.
              -- destruct (S1 n) eqn:X; [apply M1 in X; congruence|reflexivity].
              -- intros m Sm. apply M0, M1, Sm.
              -- intros m Sm X. destruct (A0 m (M1 m Sm) X) as [[->|Y]|Y]; [congruence|left; exact Y|right]. exact (A1 m Sm Y).
              -- intros p m Sm EP SP. apply (C1 p m Sm EP). apply (C0 p m (M1 m Sm) EP SP).
              -- exact D1.
              -- intros m X. apply L0. right. exact X.
            * apply IHl; auto. 2: { intros m X. apply L0. right. exact X. } intros m Sm X. destruct (A0 m Sm X) as [[->|Y]|Y]; [|left; exact Y|right; exact Y].
              right. apply is_nil_false in SU. destruct SU as (v & V). apply succs_iff, edge_restrict in V. exists v. tauto.
          + apply IHl; auto. 2: { intros m X. apply L0. right. exact X. } intros m Sm X. destruct (A0 m Sm X) as [[->|Y]|Y]; [|left; exact Y|right; exact Y].
            exfalso. assert (X' : has_node (restrict S0 g) m = true).
            { apply has_node_iff, in_restrict. split; [|exact Sm]. destruct X as (v & EV & _). apply P in EV. tauto. }
            congruence. }
      destruct (B0 (rev (preds (restrict S g) n)) (without S n)) as (S' & R); [..|exists S'; exact R].
      + assert (X := filter_lt S n (nodes g) I L). unfold restrict in *. cbn [nodes] in *. lia.
      + unfold without. rewrite Z.eqb_refl, andb_false_r. reflexivity.
      + intros m W. apply without_iff in W. tauto.
      + intros m W (v & EV & SV). apply without_iff in W. destruct W as [W1 W2]. destruct (Z.eq_dec v n) as [->|NE].
        * left. apply -> in_rev. apply preds_iff, edge_restrict. tauto.
        * right. exists v. split; [exact EV|]. apply without_iff. auto.
      + intros p m W EP SP. apply without_iff in W. apply without_iff. split; [exact SP|]. intros ->. rewrite (N m EP) in W. destruct W; discriminate.
      + intros m W. destruct (Z.eq_dec m n) as [->|NE]; [exact DN|]. apply O. destruct (S m) eqn:X; [|reflexivity]. assert (Y : without S n m = true) by (apply without_iff; auto). congruence.
      + intros m X. apply in_rev, preds_iff, edge_restrict in X. exists n. tauto.
  Qed.
End Prune.

(** ** Paths *)
Lemma path_trans g a b c : path g a b -> path g b c -> path g a c.
Proof. intros H. induction H as [n|u v w H1 H2 IH]; [auto|]. intros K. econstructor; [exact H1|auto]. Qed.
Lemma path_last g a b : path g a b -> a = b \/ exists p, path g a p /\ edge g p b.
Proof.
  intros H. induction H as [n|u v w H1 H2 IH]; [left; reflexivity|]. right. destruct IH as [<-|(p & A & B)]; [exists u; split; [constructor|exact H1]|].
  exists p. split; [econstructor; eassumption|exact B].
Qed.

Section Main.
  Variables (g : graph) (src tgt : Z).
  Hypothesis P : proper g.
  Hypothesis T : forall v, ~ edge g tgt v.
  Definition on_path n := path g src n /\ path g n tgt.

  Lemma forward_dead S n : (forall m, S m = false -> ~ on_path m) -> n <> src -> (forall u, edge g u n -> S u = false) -> ~ on_path n.
  Proof.
    intros O NE H [A B]. destruct (path_last g src n A) as [->|(p & A1 & A2)]; [congruence|]. apply (O p (H p A2)). split; [exact A1|]. econstructor; eassumption.
  Qed.
  Lemma backward_dead S n : (forall m, S m = false -> ~ on_path m) -> n <> tgt -> (forall v, edge g n v -> S v = false) -> ~ on_path n.
  Proof.
    intros O NE H [A B]. inversion B as [|u v w B1 B2]; subst; [congruence|]. apply (O v (H v B1)). split; [|exact B2]. eapply path_trans; [exact A|]. econstructor; [exact B1|constructor].
  Qed.

  (** What the loop has reached after the nodes [done] *)
  Definition reached (done : list Z) (S : Z -> bool) : Prop :=
    (forall m, S m = false -> ~ on_path m) /\
    (forall m, In m done -> S m = true -> m <> src -> exists u, edge g u m /\ S u = true) /\
    (forall m, In m done -> S m = true -> m <> tgt -> exists v, edge g m v /\ S v = true).
  Lemma later_not_before done n todo m : topological g (done ++ n :: todo) -> In m done -> ~ edge g n m.
  Proof.
    intros (_ & ND & F) M EN. destruct (F n m EN) as (a & b & c & Eq). assert (X : In m (a ++ [n])).
    { assert (Y : done = a /\ todo = b ++ m :: c).
      { clear -Eq ND. revert a Eq. induction done as [|x done IH]; intros [|y a] Eq; cbn in Eq.
        - injection Eq as Eq. auto.
        - injection Eq as -> Eq. exfalso. cbn in ND. apply NoDup_cons_iff in ND. apply ND. rewrite Eq. apply in_app_iff. right. left. reflexivity.
        - injection Eq as -> Eq. exfalso. cbn in ND. apply NoDup_cons_iff in ND. apply ND. apply in_app_iff. right. left. reflexivity.
        - injection Eq as -> Eq. cbn in ND. apply NoDup_cons_iff in ND. destruct (IH (proj2 ND) a Eq) as [-> ->]. auto. }
      destruct Y as [<- _]. apply in_app_iff. left. exact M. }
    rewrite Eq in ND. replace (a ++ n :: b ++ m :: c) with ((a ++ [n]) ++ b ++ m :: c) in ND by (rewrite <- app_assoc; reflexivity).
    clear -ND X. induction (a ++ [n]) as [|x l IH]; [destruct X|]. cbn in ND. apply NoDup_cons_iff in ND. destruct X as [->|X]; [|apply IH; tauto].
    apply ND. rewrite !in_app_iff. right. right. left. reflexivity.
  Qed.
  Lemma visit_p done n todo S : topological g (done ++ n :: todo) -> reached done S ->
    exists S', visit (length (nodes g)) src tgt (restrict S g) n = Ok (restrict S' g) /\ reached (done ++ [n]) S'.
  Proof.
    intros TO (O & I1 & I2). assert (IN : In n (nodes g)) by (apply TO, in_app_iff; right; left; reflexivity).
    assert (K : forall S', reached done S' -> (S' n = true -> n <> src -> exists u, edge g u n /\ S' u = true) -> (S' n = true -> n <> tgt -> exists v, edge g n v /\ S' v = true) -> reached (done ++ [n]) S').
    { intros S' (O' & J1 & J2) K1 K2. split; [exact O'|]. split; intros m M; apply in_app_iff in M; destruct M as [M|[<-|[]]]; auto. }
    unfold visit. destruct (has_node (restrict S g) n) eqn:HN.
    2: { exists S. split; [reflexivity|]. assert (SN : S n <> true) by (intros X; assert (Y : has_node (restrict S g) n = true) by (apply has_node_iff, in_restrict; auto); congruence).
         apply K; [repeat split; assumption|congruence|congruence]. }
    apply has_node_iff, in_restrict in HN. destruct HN as [_ SN].
    destruct (negb (Z.eqb n src) && is_nil (preds (restrict S g) n)) eqn:C1.
    { apply andb_true_iff in C1. destruct C1 as [C1 C2]. rewrite negb_true_iff, Z.eqb_neq in C1. rewrite no_preds in C2.
      assert (C3 : forall u, edge g u n -> S u = false) by (intros u EU; destruct (S u) eqn:SU; [destruct (C2 u); apply edge_restrict; auto|reflexivity]).
      exists (without S n). rewrite remove_restrict. split; [reflexivity|]. apply K.
      - split; [|split].
        + intros m W. destruct (Z.eq_dec m n) as [->|NE]; [exact (forward_dead S n O C1 C3)|]. apply O. destruct (S m) eqn:X; [|reflexivity]. assert (Y : without S n m = true) by (apply without_iff; auto). congruence.
        + intros m M W NE. apply without_iff in W. destruct (I1 m M (proj1 W) NE) as (u & U1 & U2). exists u. split; [exact U1|]. apply without_iff. split; [exact U2|]. intros ->. exact (later_not_before done n todo m TO M U1).
        + intros m M W NE. apply without_iff in W. destruct (I2 m M (proj1 W) NE) as (u & U1 & U2). exists u. split; [exact U1|]. apply without_iff. split; [exact U2|]. intros ->. rewrite (C3 m U1) in W. destruct W; discriminate.
      - intros W. apply without_iff in W. destruct W as [_ W]. contradiction.
      - intros W. apply without_iff in W. destruct W as [_ W]. contradiction. }
    assert (H1 : n <> src -> exists u, edge g u n /\ S u = true).
    { intros NE. apply Z.eqb_neq in NE. rewrite NE in C1. cbn [negb andb] in C1. apply is_nil_false in C1. destruct C1 as (u & U). apply preds_iff, edge_restrict in U. exists u. tauto. }
    destruct (negb (Z.eqb n tgt) && is_nil (succs (restrict S g) n)) eqn:C2.
    { apply andb_true_iff in C2. destruct C2 as [C2 C3]. rewrite negb_true_iff, Z.eqb_neq in C2. rewrite no_succs in C3.
      assert (C4 : forall v, edge g n v -> S v = false) by (intros v EU; destruct (S v) eqn:SU; [destruct (C3 v); apply edge_restrict; auto|reflexivity]).
      destruct (backtrack_p g P (fun m => ~ on_path m)) with (fuel := length (nodes g)) (S := S) (n := n) as (S' & E & N' & (M & A & B) & O').
      - intros S0 m O0 V (v & EV). apply (backward_dead S0 m O0); [|exact V]. intros ->. exact (T v EV).
      - apply (filter_le_all S (nodes g)).
      - exact IN.
      - exact SN.
      - exact C4.
      - exact O.
      - exact (backward_dead S n O C2 C4).
      - exists S'. split; [exact E|]. apply K; [|congruence|congruence]. split; [exact O'|]. split.
        + intros m Md Sm NE. destruct (I1 m Md (M m Sm) NE) as (u & U1 & U2). exists u. split; [exact U1|]. exact (B u m Sm U1 U2).
        + intros m Md Sm NE. exact (A m Sm (I2 m Md (M m Sm) NE)). }
    exists S. split; [reflexivity|]. apply K; [repeat split; assumption|intros _; exact H1|].
    intros _ NE. apply Z.eqb_neq in NE. rewrite NE in C2. cbn [negb andb] in C2. apply is_nil_false in C2. destruct C2 as (v & V). apply succs_iff, edge_restrict in V. exists v. tauto.
  Qed.
  Lemma loop_p : forall todo done S, topological g (done ++ todo) -> reached done S ->
    exists S', fold_left (fun rg n => bind rg (fun g' => visit (length (nodes g)) src tgt g' n)) todo (Ok (restrict S g)) = Ok (restrict S' g) /\ reached (done ++ todo) S'.
  Proof.
    induction todo as [|n todo IH]; intros done S TO R.
    - exists S. rewrite app_nil_r. auto.
    - destruct (visit_p done n todo S TO R) as (S1 & E1 & R1). cbn [fold_left bind]. rewrite E1.
      replace (done ++ n :: todo) with ((done ++ [n]) ++ todo) in * by (rewrite <- app_assoc; reflexivity). exact (IH (done ++ [n]) S1 TO R1).
  Qed.

  Lemma walk_back order S : topological g order -> (forall m, In m (nodes g) -> S m = true -> m <> src -> exists u, edge g u m /\ S u = true) ->
    forall k a n c, length a <= k -> order = a ++ n :: c -> S n = true -> path g src n.
  Proof.
    intros TO I. induction k as [|k IH]; intros a n c L Eq SN; (destruct (Z.eq_dec n src) as [->|NE]; [constructor|]);
      (destruct (I n) as (u & EU & SU); [apply TO; rewrite Eq; apply in_app_iff; right; left; reflexivity|exact SN|exact NE|]);
      destruct (proj2 (proj2 TO) u n EU) as (a' & b' & c' & Eq').
    all: assert (Y : a = a' ++ u :: b').
    all: try (destruct TO as (_ & ND & _); rewrite Eq in ND, Eq'; clear -Eq' ND; replace (a' ++ u :: b' ++ n :: c') with ((a' ++ u :: b') ++ n :: c') in Eq' by (rewrite <- app_assoc; reflexivity);
      revert Eq'; generalize (a' ++ u :: b'); intros b Eq; revert b Eq ND; induction a as [|x a IH]; intros [|y b] Eq ND; cbn in Eq;
      [reflexivity|injection Eq as -> Eq; exfalso; cbn in ND; apply NoDup_cons_iff in ND; apply ND; rewrite Eq; apply in_app_iff; right; left; reflexivity
      |injection Eq as -> Eq; exfalso; cbn in ND; apply NoDup_cons_iff in ND; apply ND; apply in_app_iff; right; left; reflexivity
      |injection Eq as -> Eq; cbn in ND; apply NoDup_cons_iff in ND; f_equal; exact (IH b Eq (proj2 ND))]).
    - rewrite Y, app_length in L. cbn in L. lia.
    - eapply path_trans; [apply (IH a' u (b' ++ n :: c'))|econstructor; [exact EU|constructor]]; [rewrite Y, app_length in L; cbn in L; lia|exact Eq'|exact SU].
  Qed.
  Lemma walk_on order S : topological g order -> (forall m, In m (nodes g) -> S m = true -> m <> tgt -> exists v, edge g m v /\ S v = true) ->
    forall k a n c, length c <= k -> order = a ++ n :: c -> S n = true -> path g n tgt.
  Proof.
    intros TO I. induction k as [|k IH]; intros a n c L Eq SN; (destruct (Z.eq_dec n tgt) as [->|NE]; [constructor|]);
      (destruct (I n) as (v & EU & SU); [apply TO; rewrite Eq; apply in_app_iff; right; left; reflexivity|exact SN|exact NE|]);
      destruct (proj2 (proj2 TO) n v EU) as (a' & b' & c' & Eq').
    all: assert (Y : a = a' /\ c = b' ++ v :: c').
    all: try (destruct TO as (_ & ND & _); rewrite Eq in ND, Eq'; clear -Eq' ND; revert Eq'; generalize (b' ++ v :: c'); intros b Eq; revert a' Eq ND; induction a as [|x a IH]; intros [|y a'] Eq ND; cbn in Eq;
      [injection Eq as Eq; auto|injection Eq as -> Eq; exfalso; cbn in ND; apply NoDup_cons_iff in ND; apply ND; rewrite Eq; apply in_app_iff; right; left; reflexivity
      |injection Eq as -> Eq; exfalso; cbn in ND; apply NoDup_cons_iff in ND; apply ND; apply in_app_iff; right; left; reflexivity
      |injection Eq as -> Eq; cbn in ND; apply NoDup_cons_iff in ND; destruct (IH a' Eq (proj2 ND)) as [-> ->]; auto]).
    - destruct Y as [_ Y]. rewrite Y, app_length in L. cbn in L. lia.
    - econstructor; [exact EU|]. apply (IH (a' ++ n :: b') v c'); [destruct Y as [_ Y]; rewrite Y, app_length in L; cbn in L; lia|rewrite <- app_assoc; exact Eq'|exact SU].
  Qed.

  Lemma prune_p order : topological g order -> exists h, prune_unconnected_parts g order src tgt = Ok h /\ part g on_path h.
  Proof.
    intros TO. destruct (loop_p order [] (fun _ => true)) as (S & E & O & I1 & I2).
    - exact TO.
    - split; [discriminate|]. split; intros m [].
    - rewrite restrict_all in E. exists (restrict S g). split; [exact E|]. cbn [app] in *.
      assert (OK : forall n, In n (nodes g) -> (S n = true <-> on_path n)).
      { intros n N. split.
        - intros SN. destruct (in_split n order (proj2 (proj1 TO n) N)) as (a & c & Eq). split.
          + refine (walk_back order S TO _ (length a) a n c (le_n _) Eq SN). intros m M. apply I1, TO, M.
          + refine (walk_on order S TO _ (length c) a n c (le_n _) Eq SN). intros m M. apply I2, TO, M.
        - intros OP. destruct (S n) eqn:SN; [reflexivity|]. destruct (O n SN OP). }
      split.
      + intros n. rewrite in_restrict. split; intros [A B]; (split; [exact A|]); apply OK; assumption.
      + intros u v. rewrite edge_restrict. split; intros (A & B & C); (split; [exact A|]); destruct (proj2 P u v A) as [U V]; (split; [apply OK|apply OK]); assumption.
  Qed.
End Main.

(** ** Bypassing *)
Lemma through_weaken g (P Q : Z -> Prop) u v : (forall x, P x -> Q x) -> path_through g P u v -> path_through g Q u v.
Proof. intros H X. induction X as [u v X|u v w X1 X2 X3 IH]; [constructor 1; exact X|econstructor 2; [exact X1|auto|exact IH]]. Qed.
Lemma through_join g (P : Z -> Prop) u n v : path_through g P u n -> P n -> path_through g P n v -> path_through g P u v.
Proof. intros X. induction X as [u n X|u x n X1 X2 X3 IH]; intros H K; [econstructor 2; eassumption|econstructor 2; [exact X1|exact X2|auto]]. Qed.
Lemma through_split g (P : Z -> Prop) n u v : path_through g (fun x => P x \/ x = n) u v -> path_through g P u v \/ (path_through g P u n /\ path_through g P n v).
Proof.
  intros X. induction X as [u v X|u x v X1 X2 X3 IH]; [left; constructor 1; exact X|]. destruct X2 as [X2| ->].
  - destruct IH as [IH|[I1 I2]]; [left; econstructor 2; eassumption|right; split; [econstructor 2; eassumption|exact I2]].
  - right. split; [constructor 1; exact X1|]. tauto.
Qed.
Lemma through_first g (P : Z -> Prop) u v : path_through g P u v -> exists x, edge g u x.
Proof. intros [a b X|a b c X _ _]; eauto. Qed.
Lemma through_last g (P : Z -> Prop) u v : path_through g P u v -> exists x, edge g x v.
Proof. intros X. induction X; eauto. Qed.
Lemma through_path g (P : Z -> Prop) u v : path_through g P u v -> path g u v.
Proof. intros X. induction X as [u v X|u x v X1 _ _ IH]; (econstructor; [eassumption|]); [constructor|exact IH]. Qed.

Lemma has_edge_iff g e : has_edge g e = true <-> In e (edges g).
Proof.
  unfold has_edge. rewrite existsb_exists. split.
  - intros ([a b] & X & Y). apply andb_true_iff in Y. destruct Y as [Y1 Y2]. apply Z.eqb_eq in Y1, Y2. cbn in *. destruct e as [c d]. cbn in *. congruence.
  - intros H. exists e. split; [exact H|]. rewrite !Z.eqb_refl. reflexivity.
Qed.
Lemma add_edges l : forall g, nodes (fold_left add_edge l g) = nodes g /\ forall e, In e (edges (fold_left add_edge l g)) <-> In e (edges g) \/ In e l.
Proof.
  induction l as [|x l IH]; intros g; cbn [fold_left]; [split; [reflexivity|intros e; cbn; tauto]|]. destruct (IH (add_edge g x)) as [I1 I2]. split.
  - rewrite I1. unfold add_edge. destruct (has_edge g x); reflexivity.
  - intros e. rewrite I2. cbn [In]. unfold add_edge. destruct (has_edge g x) eqn:H.
    + apply has_edge_iff in H. split; [tauto|]. intros [A|[<-|A]]; tauto.
    + cbn [edges]. rewrite in_app_iff. cbn. tauto.
Qed.
Lemma edge_remove g n u v : edge (remove_node g n) u v <-> edge g u v /\ u <> n /\ v <> n.
Proof. unfold edge, remove_node. cbn [edges]. rewrite filter_In. cbn [fst snd]. rewrite andb_true_iff, !negb_true_iff, !Z.eqb_neq. reflexivity. Qed.
Lemma node_remove g n m : In m (nodes (remove_node g n)) <-> In m (nodes g) /\ m <> n.
Proof. unfold remove_node. cbn [nodes]. rewrite filter_In, negb_true_iff, Z.eqb_neq. reflexivity. Qed.

Section Drop.
  Variables (g : graph) (zero identity : Z -> bool).
  Notation special n := (zero n || identity n).
  Definition through_done (done : list Z) := path_through g (fun n => In n done /\ identity n = true).
  Definition dropped (done : list Z) (h : graph) : Prop :=
    (forall n, In n (nodes h) <-> In n (nodes g) /\ ~ (In n done /\ special n = true)) /\
    forall u v, edge h u v <-> ~ (In u done /\ special u = true) /\ ~ (In v done /\ special v = true) /\ through_done done u v.
  Lemma drop_one done h n : In n (nodes g) -> ~ In n done -> dropped done h -> dropped (done ++ [n]) (drop zero identity h n).
  Proof.
    intros IN ND [D1 D2]. assert (HN : has_node h n = true) by (apply has_node_iff, D1; split; [exact IN|tauto]). unfold drop. rewrite HN. cbn [andb].
    assert (IA : forall m, In m (done ++ [n]) <-> In m done \/ m = n) by (intros m; rewrite in_app_iff; cbn; intuition).
    destruct (special n) eqn:SP.
    - assert (EH : forall u v, In (u, v) (edges (if identity n then fold_left add_edge (list_prod (preds h n) (succs h n)) h else h)) <-> edge h u v \/ (identity n = true /\ edge h u n /\ edge h n v)).
      { intros u v. destruct (identity n).
        - rewrite (proj2 (add_edges _ h)), in_prod_iff, preds_iff, succs_iff. unfold edge. tauto.
        - unfold edge. split; [tauto|]. intros [A|(A & _)]; [exact A|discriminate]. }
      assert (NH : nodes (if identity n then fold_left add_edge (list_prod (preds h n) (succs h n)) h else h) = nodes h) by (destruct (identity n); [apply add_edges|reflexivity]).
      split.
      + intros m. rewrite node_remove, NH, D1. rewrite IA. split.
        * intros ((A & B) & C). split; [exact A|]. intros ([K|K] & L); [tauto|congruence].
        * intros (A & B). split; [split; [exact A|tauto]|]. intros ->. apply B. auto.
      + intros u v. rewrite edge_remove. unfold edge at 1. rewrite EH, !D2. rewrite !IA. split.
        * intros ([(A & B & C)|(I0 & (A & B & C) & (A' & B' & C'))] & U & V).
          -- split; [intros ([K|K] & L); tauto|]. split; [intros ([K|K] & L); tauto|]. eapply through_weaken; [|exact C]. intros x (X1 & X2). rewrite IA. tauto.
          -- split; [intros ([K|K] & L); tauto|]. split; [intros ([K|K] & L); tauto|]. apply (through_join g _ u n v).
             ++ eapply through_weaken; [|exact C]. intros x (X1 & X2). rewrite IA. tauto.
             ++ rewrite IA. tauto.
             ++ eapply through_weaken; [|exact C']. intros x (X1 & X2). rewrite IA. tauto.
        * intros (A & B & C). assert (U : u <> n) by (intros ->; apply A; auto). assert (V : v <> n) by (intros ->; apply B; auto). split; [|auto].
          assert (NN : ~ (In n done /\ special n = true)) by tauto. assert (A' : ~ (In u done /\ special u = true)) by tauto. assert (B' : ~ (In v done /\ special v = true)) by tauto.
          destruct (identity n) eqn:ID.
          -- assert (C' : path_through g (fun x => (In x done /\ identity x = true) \/ x = n) u v).
             { eapply through_weaken; [|exact C]. intros x (X1 & X2). rewrite IA in X1. tauto. }
             destruct (through_split g _ n u v C') as [X|[X Y]]; [left; auto|right; split; [reflexivity|]; auto].
          -- left. split; [exact A'|]. split; [exact B'|]. eapply through_weaken; [|exact C]. intros x (X1 & X2). rewrite IA in X1. destruct X1 as [X1| ->]; [auto|congruence].
    - assert (SI : identity n = false) by (destruct (zero n), (identity n); try discriminate; reflexivity). split.
      + intros m. rewrite D1, IA. split; intros (A & B); (split; [exact A|]); [intros ([K|K] & L); [tauto|congruence]|tauto].
      + intros u v. rewrite D2, !IA. split; intros (A & B & C).
        * split; [intros ([K|K] & L); [tauto|congruence]|]. split; [intros ([K|K] & L); [tauto|congruence]|]. eapply through_weaken; [|exact C]. intros x (X1 & X2). rewrite IA. tauto.
        * split; [tauto|]. split; [tauto|]. eapply through_weaken; [|exact C]. intros x (X1 & X2). rewrite IA in X1. destruct X1 as [X1| ->]; [auto|congruence].
  Qed.
  Lemma drop_all : forall todo done h, NoDup (done ++ todo) -> (forall n, In n (done ++ todo) -> In n (nodes g)) -> dropped done h -> dropped (done ++ todo) (fold_left (drop zero identity) todo h).
  Proof.
    induction todo as [|n todo IH]; intros done h ND IN D; cbn [fold_left]; [rewrite app_nil_r; exact D|].
    replace (done ++ n :: todo) with ((done ++ [n]) ++ todo) in * by (rewrite <- app_assoc; reflexivity). apply IH; [exact ND|exact IN|].
    apply drop_one; [apply IN; rewrite !in_app_iff; cbn; auto| |exact D]. rewrite <- app_assoc in ND. cbn in ND. apply NoDup_remove_2 in ND. rewrite in_app_iff in ND. tauto.
  Qed.
  Lemma drop_p order : proper g -> topological g order -> bypassed g zero identity (fold_left (drop zero identity) order g).
  Proof.
    intros P (T1 & T2 & T3). destruct (drop_all order [] g) as [D1 D2].
    - exact T2.
    - intros n N. apply T1, N.
    - split; [intros n; cbn; tauto|]. intros u v. split.
      + intros E. split; [cbn; tauto|]. split; [cbn; tauto|]. constructor 1. exact E.
      + intros (_ & _ & X). destruct X as [u v X|u v w X1 X2 X3]; [exact X|]. destruct X2 as [[] _].
    - cbn [app] in *. assert (SF : forall n, In n (nodes g) -> (~ (In n order /\ special n = true) <-> zero n = false /\ identity n = false)).
      { intros n N. apply T1 in N. destruct (zero n), (identity n); cbn; split; intuition congruence. }
      split.
      + intros n. rewrite D1. split; intros (A & B); (split; [exact A|]); apply SF in B; assumption || (apply SF; assumption).
      + intros u v. rewrite D2. unfold through_done. split; intros (A & B & C).
        * destruct (through_first _ _ _ _ C) as (x & X). destruct (through_last _ _ _ _ C) as (y & Y). apply P in X, Y. split; [apply SF; tauto|]. split; [apply SF; tauto|].
          eapply through_weaken; [|exact C]. cbn. tauto.
        * destruct (through_first _ _ _ _ C) as (x & X). destruct (through_last _ _ _ _ C) as (y & Y). apply P in X, Y. split; [apply SF; tauto|]. split; [apply SF; tauto|].
          clear -C T1 P. induction C as [u v X|u v w X1 X2 X3 IH]; [constructor 1; exact X|econstructor 2; [exact X1| |exact IH]]. split; [apply T1; apply P in X1; tauto|exact X2].
  Qed.
End Drop.

Lemma filter_split (f : Z -> bool) a u b v c : f u = true -> f v = true -> filter f (a ++ u :: b ++ v :: c) = filter f a ++ u :: filter f b ++ v :: filter f c.
Proof. intros U V. rewrite filter_app. cbn [filter]. rewrite U, filter_app. cbn [filter]. rewrite V. reflexivity. Qed.
Lemma order_path g order u v : topological g order -> path g u v -> u = v \/ exists a b c, order = a ++ u :: b ++ v :: c.
Proof.
  intros TO X. induction X as [n|u x v X1 X2 IH]; [left; reflexivity|]. right. destruct (proj2 (proj2 TO) u x X1) as (a & b & c & E). destruct IH as [<-|(a' & b' & c' & E')]; [eauto|].
  assert (Y : a' = a ++ u :: b /\ c = b' ++ v :: c').
  { destruct TO as (_ & ND & _). rewrite E in E', ND. replace (a ++ u :: b ++ x :: c) with ((a ++ u :: b) ++ x :: c) in * by (rewrite <- app_assoc; reflexivity).
    clear -E' ND. revert E' ND. generalize (a ++ u :: b). generalize (b' ++ v :: c'). intros d e E ND. revert a' E ND. induction e as [|y e IH]; intros [|z a'] E ND; cbn in E.
    - injection E as E. auto.
    - injection E as -> E. exfalso. cbn in ND. apply NoDup_cons_iff in ND. apply ND. rewrite E. apply in_app_iff. right. left. reflexivity.
    - injection E as -> E. exfalso. cbn in ND. apply NoDup_cons_iff in ND. apply ND. apply in_app_iff. right. left. reflexivity.
    - injection E as -> E. cbn in ND. apply NoDup_cons_iff in ND. destruct (IH a' E (proj2 ND)) as [-> ->]. auto. }
  destruct Y as [Y1 Y2]. exists a, (b ++ x :: b'), c'. rewrite E, Y2. rewrite <- app_assoc. reflexivity.
Qed.
(** A graph whose edges are paths of another that has an order *)
Lemma topological_part g order h (f : Z -> bool) : topological g order -> (forall n, In n (nodes h) <-> In n (nodes g) /\ f n = true) ->
  (forall u v, edge h u v -> f u = true /\ f v = true /\ path g u v /\ u <> v) -> topological h (filter f order).
Proof.
  intros TO N E. split; [|split].
  - intros n. rewrite filter_In, N. destruct TO as (T & _). rewrite T. reflexivity.
  - apply NoDup_filter. apply TO.
  - intros u v X. destruct (E u v X) as (U & V & Y & NE). destruct (order_path g order u v TO Y) as [Z|(a & b & c & Z)]; [congruence|]. exists (filter f a), (filter f b), (filter f c). rewrite Z. apply filter_split; assumption.
Qed.
Lemma no_cycle g order u v : topological g order -> edge g u v -> path g v u -> False.
Proof.
  intros TO E X. destruct (proj2 (proj2 TO) u v E) as (a & b & c & Eq). assert (ND : NoDup order) by apply TO.
  assert (Y : In v (a ++ [u])).
  { destruct (order_path g order v u TO X) as [->|(a' & b' & c' & Eq')]; [apply in_app_iff; right; left; reflexivity|]. apply in_app_iff. left.
    assert (Z : a = a' ++ v :: b').
    { rewrite Eq in Eq', ND. replace (a' ++ v :: b' ++ u :: c') with ((a' ++ v :: b') ++ u :: c') in Eq' by (rewrite <- app_assoc; reflexivity).
      clear -Eq' ND. revert Eq' ND. generalize (a' ++ v :: b'). generalize (b ++ v :: c). intros d e E ND. revert e E ND. induction a as [|y a IH]; intros [|z e] E ND; cbn in E.
      - reflexivity.
      - injection E as -> E. exfalso. cbn in ND. apply NoDup_cons_iff in ND. apply ND. rewrite E. apply in_app_iff. right. left. reflexivity.
      - injection E as -> E. exfalso. cbn in ND. apply NoDup_cons_iff in ND. apply ND. apply in_app_iff. right. left. reflexivity.
      - injection E as -> E. cbn in ND. apply NoDup_cons_iff in ND. f_equal. exact (IH e E (proj2 ND)). }
    rewrite Z. apply in_app_iff. right. left. reflexivity. }
  rewrite Eq in ND. replace (a ++ u :: b ++ v :: c) with ((a ++ [u]) ++ b ++ v :: c) in ND by (rewrite <- app_assoc; reflexivity).
  clear -ND Y. induction (a ++ [u]) as [|x l IH]; [destruct Y|]. cbn in ND. apply NoDup_cons_iff in ND. destruct Y as [->|Y]; [|apply IH; tauto]. apply ND. rewrite !in_app_iff. right. right. left. reflexivity.
Qed.
Lemma the_only_iff l n : NoDup l -> (the_only l = Ok n <-> forall m, In m l <-> m = n).
Proof.
  intros ND. split.
  - intros H m. destruct l as [|x [|y l]]; try discriminate. cbn in H. injection H as ->. cbn. intuition.
  - intros H. destruct l as [|x [|y l]].
    + destruct (proj2 (H n) eq_refl).
    + cbn. f_equal. apply H. left. reflexivity.
    + exfalso. assert (X : x = n) by (apply H; left; reflexivity). assert (Y : y = n) by (apply H; right; left; reflexivity). subst x y. apply NoDup_cons_iff in ND. apply ND. left. reflexivity.
Qed.
Lemma only_p g (P : Z -> Prop) (f : Z -> bool) n : NoDup (nodes g) -> (forall m, f m = true <-> P m) -> (the_only (filter f (nodes g)) = Ok n <-> only g P n).
Proof.
  intros ND F. rewrite the_only_iff by (apply NoDup_filter; exact ND). unfold only. split; intros H m; specialize (H m); rewrite filter_In, F in *; exact H.
Qed.

Section Whole.
  Variable sorted : graph -> list Z.
  Lemma sorts_self g : proper g -> (exists o, topological g o) -> sorts sorted g -> topological g (sorted g).
  Proof.
    intros P (o & TO) H. apply H; [auto|]. intros u v E. destruct (proj2 P u v E). repeat split; auto; [|econstructor; [exact E|constructor]]. intros ->. exact (no_cycle g o v v TO E (path_here g v)).
  Qed.
  Lemma prune_nodes_p zero identity g src tgt : proper g -> (exists o, topological g o) -> sorts sorted g -> only g (fun n => forall u, ~ edge g u n) src -> only g (fun n => forall v, ~ edge g n v) tgt ->
    exists g1 h, bypassed g zero identity g1 /\ prune_graph_nodes sorted zero identity g = Ok h /\ part g1 (fun n => path g1 src n /\ path g1 n tgt) h.
  Proof.
    intros P AC ST SO TO. pose proof (sorts_self g P AC ST) as TS. pose proof (drop_p g zero identity (sorted g) P TS) as B. set (g1 := fold_left (drop zero identity) (sorted g) g) in *.
    assert (S1 : the_only (filter (fun n => is_nil (preds g n)) (nodes g)) = Ok src) by (apply (only_p g _ _ src (proj1 P) (fun m => no_preds g m)); exact SO).
    assert (T1 : the_only (filter (fun n => is_nil (succs g n)) (nodes g)) = Ok tgt) by (apply (only_p g _ _ tgt (proj1 P) (fun m => no_succs g m)); exact TO).
    assert (P1 : proper g1).
    { split.
      - clear -P. unfold g1. generalize (sorted g). intros l. assert (X := proj1 P). clear P. revert X. generalize g. induction l as [|n l IH]; intros h X; [exact X|]. cbn [fold_left]. apply IH.
        unfold drop. destruct (has_node h n && (zero n || identity n)); [|exact X]. unfold remove_node. cbn [nodes]. apply NoDup_filter. destruct (identity n); [rewrite (proj1 (add_edges _ h))|]; exact X.
      - intros u v E. apply B in E. destruct E as (A1 & A2 & A3). destruct (through_first _ _ _ _ A3) as (x & X). destruct (through_last _ _ _ _ A3) as (y & Y). apply P in X, Y. split; apply B; tauto. }
    assert (TP : topological g1 (sorted g1)).
    { apply ST.
      - intros n N. apply B in N. tauto.
      - intros u v E. split; [apply P1 in E; tauto|]. split; [apply P1 in E; tauto|]. apply B in E. destruct E as (A1 & A2 & A3). split; [|apply (through_path _ _ _ _ A3)].
        intros ->. inversion A3 as [a b X|a b c X1 X2 X3]; subst; [exact (no_cycle g _ v v TS X (path_here g v))|exact (no_cycle g _ v b TS X1 (through_path _ _ _ _ X3))]. }
    destruct (prune_p g1 src tgt P1) with (order := sorted g1) as (h & E & PT).
    - intros v X. apply B in X. destruct X as (_ & _ & X). destruct (through_first _ _ _ _ X) as (x & Y). assert (Z := proj2 (TO tgt) eq_refl). destruct Z as [_ Z]. exact (Z x Y).
    - exact TP.
    - exists g1, h. split; [exact B|]. split; [|exact PT]. unfold prune_graph_nodes. rewrite S1. cbn [bind]. rewrite T1. cbn [bind]. exact E.
  Qed.
  Lemma within_iff z s : within z s = true <-> contains z s.
  Proof.
    unfold contains. induction s as [|c s IH].
    - cbn. rewrite orb_false_r. split; [intros H; destruct z; [exists EmptyString, EmptyString; reflexivity|discriminate]|intros (a & b & E); destruct a; [destruct z; [reflexivity|discriminate]|discriminate]].
    - cbn [within]. rewrite orb_true_iff, IH. split.
      + intros [H|(a & b & E)].
        * assert (Q : forall x y, prefix x y = true -> exists b, y = (x ++ b)%string).
          { induction x as [|d x IHx]; intros y H0; [exists y; reflexivity|]. destruct y as [|e y]; [discriminate|]. cbn in H0. destruct (Ascii.ascii_dec d e) as [->|]; [|discriminate]. destruct (IHx y H0) as (b & ->). exists b. reflexivity. }
          destruct (Q z (String c s) H) as (b & ->). exists EmptyString, b. reflexivity.
        * exists (String c a), b. rewrite E. reflexivity.
      + intros (a & b & E). destruct a as [|d a]; [left|right; cbn in E; injection E as -> E; eauto]. cbn in E. rewrite E. clear. induction z as [|c z IH]; [destruct b; reflexivity|]. cbn. destruct (Ascii.ascii_dec c c); [exact IH|congruence].
  Qed.
  Lemma prune_edges_p name zero_op g src tgt : proper g -> (exists o, topological g o) -> sorts sorted g -> only g (fun n => forall u, ~ edge g u n) src -> only g (fun n => forall v, ~ edge g n v) tgt ->
    exists g1 h, (forall n, In n (nodes g1) <-> In n (nodes g)) /\ (forall u v, edge g1 u v <-> edge g u v /\ ~ exists z, In z zero_op /\ contains z (name (u, v))) /\
      prune_graph_edges sorted name zero_op g = Ok h /\ part g1 (fun n => path g1 src n /\ path g1 n tgt) h.
  Proof.
    intros P (o & AC) ST SO TO.
    assert (S1 : the_only (filter (fun n => is_nil (preds g n)) (nodes g)) = Ok src) by (apply (only_p g _ _ src (proj1 P) (fun m => no_preds g m)); exact SO).
    assert (T1 : the_only (filter (fun n => is_nil (succs g n)) (nodes g)) = Ok tgt) by (apply (only_p g _ _ tgt (proj1 P) (fun m => no_succs g m)); exact TO).
    set (g1 := mkGraph (nodes g) (filter (fun e => negb (existsb (fun z => within z (name e)) zero_op)) (edges g))).
    assert (E1 : forall u v, edge g1 u v <-> edge g u v /\ ~ exists z, In z zero_op /\ contains z (name (u, v))).
    { intros u v. unfold edge, g1. cbn [edges]. rewrite filter_In, negb_true_iff. split; intros (A & B); (split; [exact A|]).
      - intros (z & Z1 & Z2). apply within_iff in Z2. assert (X : existsb (fun z => within z (name (u, v))) zero_op = true) by (apply existsb_exists; eauto). congruence.
      - destruct (existsb _ zero_op) eqn:X; [|reflexivity]. apply existsb_exists in X. destruct X as (z & Z1 & Z2). apply within_iff in Z2. destruct B. eauto. }
    destruct (prune_p g1 src tgt) with (order := sorted g1) as (h & E & PT).
    - split; [apply P|]. intros u v X. apply E1 in X. apply P, X.
    - intros v X. apply E1 in X. exact (proj2 (proj2 (TO tgt) eq_refl) v (proj1 X)).
    - apply ST; [auto|]. intros u v X. apply E1 in X. destruct X as [X _]. destruct (proj2 P u v X) as [U V]. split; [exact U|]. split; [exact V|]. split; [|econstructor; [exact X|constructor]]. intros ->. exact (no_cycle g o v v AC X (path_here g v)).
    - exists g1, h. split; [intros n; reflexivity|]. split; [exact E1|]. split; [|exact PT]. unfold prune_graph_edges. rewrite S1. cbn [bind]. rewrite T1. cbn [bind]. exact E.
  Qed.
End Whole.
Lemma not_only g (P : Z -> Prop) (f : Z -> bool) : NoDup (nodes g) -> (forall m, f m = true <-> P m) -> (forall n, ~ only g P n) -> the_only (filter f (nodes g)) = Err RuntimeError.
Proof.
  intros ND F N. destruct (the_only (filter f (nodes g))) as [n|e] eqn:E; [apply (only_p g P f n ND F) in E; destruct (N n E)|]. destruct (filter f (nodes g)) as [|x [|y l]]; cbn in E; congruence.
Qed.
Lemma check_pruned g order src tgt : proper g -> topological g order -> In src (nodes g) -> src <> tgt -> (forall v, ~ edge g tgt v) ->
  (path g src tgt -> exists h, bind (prune_unconnected_parts g order src tgt) check_graph = Ok h /\ prune_unconnected_parts g order src tgt = Ok h) /\
  (~ path g src tgt -> bind (prune_unconnected_parts g order src tgt) check_graph = Err ValueError).
Proof.
  intros P TO IN NE T. destruct (prune_p g src tgt P T order TO) as (h & E & PT). rewrite E. cbn [bind]. unfold check_graph. split.
  - intros X. exists h. split; [|reflexivity]. inversion X as [|u v w X1 X2]; subst; [congruence|].
    assert (A : In src (nodes h)) by (apply PT; split; [exact IN|]; split; [constructor|exact X]).
    assert (B : In (src, v) (edges h)) by (apply PT; split; [exact X1|]; split; [split; [constructor|exact X]|split; [econstructor; [exact X1|constructor]|exact X2]]).
    destruct (nodes h); [destruct A|]. destruct (edges h); [destruct B|]. reflexivity.
  - intros X. destruct (nodes h) as [|n l] eqn:N; [reflexivity|]. exfalso. apply X. assert (A : In n (nodes h)) by (rewrite N; left; reflexivity). apply PT in A. destruct A as (_ & A & B). exact (path_trans _ _ _ _ A B).
Qed.
Lemma check_single g order n : proper g -> topological g order -> (forall v, ~ edge g n v) -> bind (prune_unconnected_parts g order n n) check_graph = Err ValueError.
Proof.
  intros P TO T. destruct (prune_p g n n P T order TO) as (h & E & PT). rewrite E. cbn [bind]. unfold check_graph.
  destruct (edges h) as [|(u, v) l] eqn:EE; [rewrite orb_true_r; reflexivity|]. exfalso. assert (A : edge h u v) by (unfold edge; rewrite EE; left; reflexivity).
  apply PT in A. destruct A as (A & (B & _) & _). inversion B as [|x y z B1 B2]; subst; [exact (T v A)|exact (T y B1)].
Qed.
