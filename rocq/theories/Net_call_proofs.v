(** Topologies that are called. *)
From Verif Require Import Py Prune_model Prune_spec Prune_proofs Net_model Net_spec Net_proofs.
From Coq Require Import FinFun.
Local Open Scope nat_scope.
Local Open Scope list_scope.
Local Notation length := List.length.

Lemma has_iff l n : has l n = true <-> In n l.
Proof. unfold has. rewrite existsb_exists. split; [intros (m & M & E); apply Z.eqb_eq in E; subst m; exact M|intros I; exists n; split; [exact I|apply Z.eqb_refl]]. Qed.
Lemma last_In (l : list Z) d : l <> [] -> In (List.last l d) l.
Proof. induction l as [|a l IH]; [congruence|]. intros _. destruct l as [|b l]; [left; reflexivity|]. right. apply IH. discriminate. Qed.
Lemma last_app (a : list Z) v c d : List.last (a ++ v :: c) d = List.last (v :: c) d.
Proof. induction a as [|b a IH]; [reflexivity|]. cbn [app]. destruct (a ++ v :: c) as [|z l] eqn:E; [destruct a; discriminate|]. exact IH. Qed.
Lemma last_target g order tgt : proper g -> topological g order -> only g (fun n => forall v, ~ edge g n v) tgt -> List.last order 0%Z = tgt.
Proof.
  intros PR (T1 & T2 & T3) TG. assert (IT : In tgt order) by (apply T1, TG; reflexivity). assert (NE : order <> []) by (intros E; rewrite E in IT; exact IT).
  apply TG. split; [apply T1, last_In, NE|]. intros v E. destruct (T3 _ v E) as (a & b & c & Q).
  assert (I : In (List.last order 0%Z) (b ++ v :: c)).
  { rewrite Q at 1. change (List.last order 0%Z :: b ++ v :: c) with ((List.last order 0%Z :: b) ++ v :: c). rewrite app_assoc, last_app. apply in_or_app. right. apply last_In. discriminate. }
  rewrite Q in T2. apply NoDup_remove_2 in T2. apply T2, in_or_app. right. exact I.
Qed.

Section Walk.
  Context {X : Type}.
  Variables (g : graph) (order : list Z) (src : Z) (f : Z -> Z -> X -> X) (mg : list X -> X) (x : X) (at_ : Z -> X).
  Hypothesis SN : forall n, NoDup (succs g n).
  Hypothesis AL : NoDup order /\ forall u v, edge g u v -> In u order -> exists a b c, order = a ++ u :: b ++ v :: c.
  Hypothesis SRC : forall u, ~ edge g u src.
  Hypothesis V : values g order src f (fun _ => mg) x at_.
  Notation loop := (walk_loop mg f).

  Lemma drain u y : forall vs, NoDup vs -> forall fuel Q rc, exists rc', (forall m, rc' m = if in_dec Z.eq_dec m vs then rc m ++ [f u m y] else rc m) /\
    loop (length vs + fuel) g (mkWalk rc Q vs u y) = loop fuel g (mkWalk rc' (Q ++ filter (fun v => negb (has Q v)) vs) [] u y).
  Proof.
    induction vs as [|v vs IH]; intros ND fuel Q rc.
    - exists rc. split; [reflexivity|]. cbn [length Nat.add filter]. rewrite app_nil_r. reflexivity.
    - inversion ND as [|? ? NV ND2]; subst. cbn [length Nat.add walk_loop cur_q next_q received cur value].
      destruct (IH ND2 fuel (if has Q v then Q else Q ++ [v]) (fun m => if Z.eqb m v then rc v ++ [f u v y] else rc m)) as (rc' & H & E). exists rc'. split.
      + intros m. rewrite H. destruct (Z.eqb_spec m v) as [->|NE].
        * destruct (in_dec Z.eq_dec v vs); [contradiction|]. destruct (in_dec Z.eq_dec v (v :: vs)) as [_|N]; [reflexivity|]. exfalso. apply N. left. reflexivity.
        * destruct (in_dec Z.eq_dec m vs) as [W|W]; destruct (in_dec Z.eq_dec m (v :: vs)) as [U|U]; try reflexivity; exfalso; [apply U; right; exact W|destruct U; [congruence|contradiction]].
      + etransitivity; [exact E|]. f_equal. f_equal. cbn [filter]. destruct (has Q v) eqn:HQ; [reflexivity|]. cbn [negb]. rewrite <- app_assoc. cbn [app]. f_equal. f_equal.
        apply filter_ext_in. intros w W. f_equal. unfold has. rewrite existsb_app. cbn. destruct (Z.eqb_spec w v) as [->|]; [contradiction|]. rewrite !orb_false_r. reflexivity.
  Qed.
  Fixpoint cost (o : list Z) : nat := match o with [] => 0 | u :: o' => S (length (succs g u) + cost o') end.
  Lemma walk_ok q seen o : breadth_first g q seen o -> forall P rc c y fuel, order = P ++ o -> (forall v, In v seen <-> In v P \/ In v q) ->
    (forall v, ~ In v P -> v <> src -> rc v = map (fun u => f u v (at_ u)) (feeding g P v)) -> (~ In src P -> rc src = [x]) ->
    (forall v, In v q -> v = src \/ exists u, In u P /\ edge g u v) -> cost o <= fuel -> (o = [] -> y = at_ (List.last order 0%Z)) ->
    loop fuel g (mkWalk rc q [] c y) = Ok (at_ (List.last order 0%Z)).
  Proof.
    induction 1 as [seen|u q seen fresh o FR BF IH]; intros P rc c y fuel E HS HR HX HQ L HY.
    - destruct fuel; cbn [walk_loop cur_q next_q value]; rewrite (HY eq_refl); reflexivity.
    - destruct AL as (ND & B). cbn [cost] in L. destruct fuel as [|fuel]; [lia|]. cbn [walk_loop cur_q next_q received].
      assert (IN : In u order) by (rewrite E; apply in_or_app; right; left; reflexivity).
      assert (NP : ~ In u P) by (intros J; rewrite E in ND; apply NoDup_remove_2 in ND; apply ND, in_or_app; left; exact J).
      assert (F : feeding g order u = feeding g P u) by (rewrite E in *; apply feeding_all; [exact ND|intros w W I; exact (B w u W I)]).
      assert (RU : exists y1 ys, rc u = y1 :: ys /\ match y1 :: ys with [z] => z | _ => mg (y1 :: ys) end = at_ u).
      { destruct (Z.eq_dec u src) as [->|NS]; [exists x, []; split; [apply HX, NP|symmetry; apply V]|].
        rewrite (HR u NP NS). pose proof (proj2 V u IN NS) as AU. rewrite F in AU. rewrite AU. destruct (HQ u (or_introl eq_refl)) as [->|(w & W & WE)]; [contradiction|].
        assert (I : In w (feeding g P u)) by (apply feeding_In; auto). destruct (feeding g P u) as [|a l]; [destruct I|]. cbn [map]. eexists _, _. split; [reflexivity|]. reflexivity. }
      destruct RU as (y1 & ys & -> & RU). cbn [length] in L.
      destruct (drain u (at_ u) (succs g u) (SN u) (fuel - length (succs g u)) q rc) as (rc' & HR' & ED).
      transitivity (loop (length (succs g u) + (fuel - length (succs g u))) g (mkWalk rc q (succs g u) u (at_ u))); [replace (length (succs g u) + (fuel - length (succs g u))) with fuel by lia; rewrite <- RU; reflexivity|].
      rewrite ED. assert (AFTER : forall v, In v (succs g u) -> ~ In v P /\ v <> u).
      { intros v W. apply succs_iff in W. destruct (B u v W IN) as (a & b & d & Q). rewrite Q in ND.
        assert (ND2 : NoDup ((a ++ u :: b) ++ v :: d)) by (rewrite <- app_assoc; exact ND). apply NoDup_remove_2 in ND2.
        assert (NV : ~ In v (a ++ u :: b)) by (intros I; apply ND2, in_or_app; left; exact I).
        split; [|intros ->; apply NV, in_or_app; right; left; reflexivity]. intros J.
        assert (SP : a = P). { rewrite Q in E. apply NoDup_remove_2 in ND. clear -E ND NP. revert P E NP. induction a as [|z a IHa]; intros P E NP; destruct P as [|p P]; try reflexivity.
          - injection E as <- _. exfalso. apply NP. left. reflexivity.
          - injection E as -> _. exfalso. apply ND. left. reflexivity.
          - injection E as -> E. f_equal. apply IHa; [intros I; apply ND; right; exact I|exact E|intros I; apply NP; right; exact I]. }
        subst a. apply NV, in_or_app. left. exact J. }
      assert (FQ : filter (fun v => negb (has q v)) (succs g u) = fresh).
      { rewrite FR. apply filter_ext_in. intros v W. destruct (AFTER v W) as (A1 & A2). destruct (in_dec Z.eq_dec v seen) as [S1|S1].
        - apply HS in S1. destruct S1 as [S1|[S1|S1]]; [contradiction|congruence|]. rewrite (proj2 (has_iff q v) S1). reflexivity.
        - destruct (has q v) eqn:HV; [|reflexivity]. exfalso. apply S1, HS. right. right. apply has_iff, HV. }
      rewrite FQ. apply (IH (P ++ [u]) rc' u (at_ u)).
      + rewrite <- app_assoc. exact E.
      + intros v. rewrite !in_app_iff, HS. cbn [In]. tauto.
      + intros v W1 W2. rewrite HR', HR by (auto; intros J; apply W1, in_or_app; left; exact J). rewrite feeding_app, feeding_one, map_app.
        destruct (in_dec Z.eq_dec v (succs g u)) as [W|W]; destruct (in_dec pair_dec (u, v) (edges g)) as [U|U]; try reflexivity.
        * exfalso. apply U. apply succs_iff, W.
        * exfalso. apply W. apply succs_iff, U.
        * symmetry. apply app_nil_r.
      + intros J. rewrite HR'. destruct (in_dec Z.eq_dec src (succs g u)) as [W|_]; [apply succs_iff in W; destruct (SRC u W)|]. apply HX. intros K. apply J, in_or_app. left. exact K.
      + intros v W. apply in_app_or in W. destruct W as [W|W]; [destruct (HQ v (or_intror W)) as [->|(w & W1 & W2)]; [left; reflexivity|right; exists w; split; [apply in_or_app; left; exact W1|exact W2]]|].
        right. exists u. split; [apply in_or_app; right; left; reflexivity|]. rewrite FR in W. apply filter_In in W. apply succs_iff, W.
      + lia.
      + intros ->. rewrite E, last_last. reflexivity.
  Qed.
  Lemma call_ok : breadth_first g [src] [src] order -> only g (fun n => forall u, ~ edge g u n) src -> forall fuel, cost order <= fuel -> call_topology mg f fuel g x = Ok (at_ (List.last order 0%Z)).
  Proof.
    intros BF ON fuel L. unfold call_topology. assert (S1 : In src (filter (fun n => is_nil (preds g n)) (nodes g))) by (apply filter_In; rewrite no_preds; apply ON; reflexivity).
    destruct (filter (fun n => is_nil (preds g n)) (nodes g)) as [|i l] eqn:EF; [destruct S1|]. assert (i = src) as ->.
    { apply ON. rewrite <- no_preds. apply (proj1 (filter_In (fun n => is_nil (preds g n)) i (nodes g))). rewrite EF. left. reflexivity. }
    apply (walk_ok _ _ _ BF [] _ src x fuel eq_refl).
    - intros v. cbn. tauto.
    - intros v _ N. destruct (Z.eqb_spec v src); [contradiction|]. reflexivity.
    - intros _. rewrite Z.eqb_refl. reflexivity.
    - intros v [<-|[]]. left. reflexivity.
    - exact L.
    - intros E. rewrite E in BF. inversion BF.
  Qed.
End Walk.

(** ** Graphs of edges *)
Lemma add_node_In l n m : In m (add_node l n) <-> In m l \/ m = n.
Proof.
  unfold add_node. destruct (existsb (Z.eqb n) l) eqn:E; [|rewrite in_app_iff; cbn; intuition]. split; [tauto|]. intros [H| ->]; [exact H|]. apply existsb_exists in E. destruct E as (k & K & E). apply Z.eqb_eq in E. subst k. exact K.
Qed.
Lemma add_node_NoDup l n : NoDup l -> NoDup (add_node l n).
Proof.
  intros ND. unfold add_node. destruct (existsb (Z.eqb n) l) eqn:E; [exact ND|]. assert (N : ~ In n l) by (intros I; apply not_true_iff_false in E; apply E, existsb_exists; exists n; split; [exact I|apply Z.eqb_refl]).
  clear E. induction ND as [|a l A _ IH]; cbn [app]; [constructor; [intros []|constructor]|]. constructor; [|apply IH; intros I; apply N; right; exact I]. rewrite in_app_iff. intros [I|[EQ|[]]]; [contradiction|subst]. apply N. left. reflexivity.
Qed.
Lemma of_edges_nodes es : (forall n, In n (nodes (of_edges es)) <-> exists e, In e es /\ (n = fst e \/ n = snd e)) /\ NoDup (nodes (of_edges es)).
Proof.
  unfold of_edges. cbn [nodes].
  assert (H : forall l, NoDup l -> (forall n, In n (fold_left (fun l e => add_node (add_node l (fst e)) (snd e)) es l) <-> In n l \/ exists e, In e es /\ (n = fst e \/ n = snd e)) /\ NoDup (fold_left (fun l e => add_node (add_node l (fst e)) (snd e)) es l)).
  { induction es as [|e es IH]; intros l ND; cbn [fold_left].
    - split; [|exact ND]. intros n. split; [tauto|]. intros [I|(e & [] & _)]. exact I.
    - destruct (IH (add_node (add_node l (fst e)) (snd e))) as (A & B); [apply add_node_NoDup, add_node_NoDup, ND|]. split; [|exact B]. intros n. rewrite A, !add_node_In. split.
      + intros [[[I| ->]| ->]|(d & D & DD)]; [left; exact I|right; exists e; cbn; auto|right; exists e; cbn; auto|right; exists d; split; [right; exact D|exact DD]].
      + intros [I|(d & [<-|D] & DD)]; [auto|left; destruct DD as [-> | ->]; auto|right; exists d; auto]. }
  destruct (H [] (NoDup_nil _)) as (A & B). split; [|exact B]. intros n. rewrite A. cbn [In]. split; [intros [[]|I]; exact I|auto].
Qed.
Lemma of_edges_proper es : proper (of_edges es).
Proof. split; [apply of_edges_nodes|]. intros u v E. split; apply of_edges_nodes; exists (u, v); cbn; auto. Qed.

(** 1, 2, ... *)
Definition up (n : nat) : list Z := map (fun i => (Z.of_nat i + 1)%Z) (seq 0 n).
Lemma up_In n m : In m (up n) <-> (1 <= m <= Z.of_nat n)%Z.
Proof. unfold up. rewrite in_map_iff. split; [intros (i & <- & I); apply in_seq in I; lia|]. intros M. exists (Z.to_nat (m - 1)). split; [lia|]. apply in_seq. lia. Qed.
Lemma up_NoDup n : NoDup (up n).
Proof. apply Injective_map_NoDup; [intros a b E; lia|apply seq_NoDup]. Qed.
Lemma up_S n : up (S n) = up n ++ [(Z.of_nat n + 1)%Z].
Proof. unfold up. rewrite seq_S, map_app. reflexivity. Qed.
Lemma up_split n u v : (1 <= u)%Z -> (u < v)%Z -> (v <= Z.of_nat n)%Z -> exists a b c, up n = a ++ u :: b ++ v :: c.
Proof.
  intros A B C. exists (up (Z.to_nat (u - 1))), (map (fun i => (Z.of_nat i + 1)%Z) (seq (Z.to_nat u) (Z.to_nat (v - 1 - u)))), (map (fun i => (Z.of_nat i + 1)%Z) (seq (Z.to_nat v) (n - Z.to_nat v))). unfold up.
  replace n with (Z.to_nat (u - 1) + (1 + (Z.to_nat (v - 1 - u) + (1 + (n - Z.to_nat v))))) at 1 by lia. rewrite !seq_app, !map_app. cbn [seq map app Nat.add]. f_equal. f_equal; [lia|].
  replace (Z.to_nat (u - 1) + 1) with (Z.to_nat u) by lia. f_equal. replace (Z.to_nat u + Z.to_nat (v - 1 - u)) with (Z.to_nat (v - 1)) by lia. f_equal; [lia|]. f_equal. f_equal. lia.
Qed.
Lemma feeding_up g n m k : (forall u, In u (up n) -> edge g u m <-> (u <= Z.of_nat k)%Z) -> k <= n -> feeding g (up n) m = up k.
Proof.
  intros H L. unfold feeding. replace n with (k + (n - k)) by lia. unfold up. rewrite seq_app, map_app, filter_app. cbn [Nat.add].
  assert (A : forall l, (forall i, In i l -> i < k) -> filter (fun u => if in_dec pair_dec (u, m) (edges g) then true else false) (map (fun i => (Z.of_nat i + 1)%Z) l) = map (fun i => (Z.of_nat i + 1)%Z) l).
  { induction l as [|i l IH]; intros I; [reflexivity|]. cbn [map filter]. destruct (in_dec pair_dec _ _) as [D|D]; [f_equal; apply IH; intros j J; apply I; right; exact J|]. exfalso. apply D, H; [apply up_In; specialize (I i (or_introl eq_refl)); lia|specialize (I i (or_introl eq_refl)); lia]. }
  assert (B : forall l, (forall i, In i l -> k <= i < n) -> filter (fun u => if in_dec pair_dec (u, m) (edges g) then true else false) (map (fun i => (Z.of_nat i + 1)%Z) l) = []).
  { induction l as [|i l IH]; intros I; [reflexivity|]. cbn [map filter]. destruct (in_dec pair_dec _ _) as [D|D]; [|apply IH; intros j J; apply I; right; exact J]. exfalso. apply H in D; [specialize (I i (or_introl eq_refl)); lia|apply up_In; specialize (I i (or_introl eq_refl)); lia]. }
  rewrite A, B; [apply app_nil_r|intros i I; apply in_seq in I; lia|intros i I; apply in_seq in I; lia].
Qed.

(** ** n edges in a row *)
Lemma filter_one (h : nat -> bool) k l : NoDup l -> (forall i, In i l -> h i = true <-> i = k) -> filter h l = if in_dec Nat.eq_dec k l then [k] else [].
Proof.
  induction 1 as [|a l NA ND IH]; intros H; [reflexivity|]. cbn [filter]. rewrite IH by (intros i I; apply H; right; exact I).
  destruct (Nat.eq_dec a k) as [->|NE].
  - rewrite (proj2 (H k (or_introl eq_refl)) eq_refl). destruct (in_dec Nat.eq_dec k l); [contradiction|]. destruct (in_dec Nat.eq_dec k (k :: l)) as [_|N]; [reflexivity|exfalso; apply N; left; reflexivity].
  - replace (h a) with false by (symmetry; apply not_true_is_false; intros T; apply NE, (H a (or_introl eq_refl)), T). destruct (in_dec Nat.eq_dec k l) as [W|W]; destruct (in_dec Nat.eq_dec k (a :: l)) as [U|U]; try reflexivity; exfalso; [apply U; right; exact W|destruct U; congruence].
Qed.
Lemma filter_map {A B} (h : B -> bool) (k : A -> B) l : filter h (map k l) = map k (filter (fun a => h (k a)) l).
Proof. induction l as [|a l IH]; [reflexivity|]. cbn [map filter]. rewrite IH. destruct (h (k a)); reflexivity. Qed.
Lemma sequential_succs n i : succs (of_edges (sequential_edges n)) (Z.of_nat i + 1) = if i <? n then [(Z.of_nat i + 2)%Z] else [].
Proof.
  unfold succs, of_edges, sequential_edges. cbn [edges]. rewrite filter_map, map_map. cbn [fst snd].
  rewrite (filter_one _ i (seq 0 n)); [|apply seq_NoDup|intros j _; rewrite Z.eqb_eq; lia].
  destruct (in_dec Nat.eq_dec i (seq 0 n)) as [W|W]; destruct (Nat.ltb_spec i n) as [U|U]; try reflexivity; exfalso; [apply in_seq in W; lia|apply W, in_seq; lia].
Qed.
Lemma sequential_edge n u v : edge (of_edges (sequential_edges n)) u v <-> (1 <= u <= Z.of_nat n /\ v = u + 1)%Z.
Proof.
  unfold edge, of_edges, sequential_edges. cbn [edges]. rewrite in_map_iff. split; [intros (i & E & I); injection E as <- <-; apply in_seq in I; lia|].
  intros (A & ->). exists (Z.to_nat (u - 1)). split; [f_equal; lia|]. apply in_seq. lia.
Qed.
Lemma sequential_bfs n : forall d k, n = k + d -> breadth_first (of_edges (sequential_edges n)) [(Z.of_nat k + 1)%Z] (up (S k)) (map (fun i => (Z.of_nat i + 1)%Z) (seq k (S d))).
Proof.
  induction d as [|d IH]; intros k E; cbn [seq map].
  - eapply bf_next; [reflexivity|]. rewrite sequential_succs. destruct (Nat.ltb_spec k n); [lia|]. constructor.
  - eapply bf_next; [reflexivity|]. rewrite sequential_succs. destruct (Nat.ltb_spec k n) as [_|]; [|lia]. cbn [filter]. destruct (in_dec Z.eq_dec (Z.of_nat k + 2)%Z (up (S k))) as [I|_]; [apply up_In in I; lia|]. cbn [app].
    specialize (IH (S k) ltac:(lia)). replace (Z.of_nat k + 2)%Z with (Z.of_nat (S k) + 1)%Z by lia. rewrite up_S in IH. exact IH.
Qed.
Lemma sequential_ok n : 1 <= n -> let g := of_edges (sequential_edges n) in
  (forall m, NoDup (succs g m)) /\ topological g (up (S n)) /\ breadth_first g [1%Z] [1%Z] (up (S n)) /\ only g (fun m => forall u, ~ edge g u m) 1%Z /\ only g (fun m => forall v, ~ edge g m v) (Z.of_nat n + 1)%Z.
Proof.
  intros L g. assert (ND : forall m, In m (nodes g) <-> (1 <= m <= Z.of_nat n + 1)%Z).
  { intros m. unfold g. rewrite (proj1 (of_edges_nodes _) m). split.
    - intros ((u, v) & I & H). apply sequential_edge in I. cbn [fst snd] in H. lia.
    - intros M. destruct (Z.eq_dec m 1) as [->|N]; [exists (1, 2)%Z; split; [apply sequential_edge; lia|cbn; auto]|]. exists (m - 1, m)%Z. split; [apply sequential_edge; lia|cbn; auto]. }
  split; [|split; [|split; [|split]]].
  - intros m. apply succs_NoDup. unfold g, of_edges, sequential_edges. cbn [edges]. apply Injective_map_NoDup; [intros a b E; injection E; lia|apply seq_NoDup].
  - split; [intros m; rewrite up_In, ND; lia|]. split; [apply up_NoDup|]. intros u v E. apply sequential_edge in E. apply up_split; lia.
  - exact (sequential_bfs n n 0 eq_refl).
  - intros m. rewrite ND. split.
    + intros (M & H). destruct (Z.eq_dec m 1) as [E|N]; [exact E|]. exfalso. apply (H (m - 1)%Z). apply sequential_edge. lia.
    + intros ->. split; [lia|]. intros u E. apply sequential_edge in E. lia.
  - intros m. rewrite ND. split.
    + intros (M & H). destruct (Z.eq_dec m (Z.of_nat n + 1)%Z) as [E|N]; [exact E|]. exfalso. apply (H (m + 1)%Z). apply sequential_edge. lia.
    + intros ->. split; [lia|]. intros u E. apply sequential_edge in E. lia.
Qed.

(** ** All edges between n nodes *)
Lemma dense_edge n u v : edge (of_edges (dense_edges n)) u v <-> (1 <= u < v /\ v <= Z.of_nat n)%Z.
Proof.
  unfold edge, of_edges, dense_edges. cbn [edges]. rewrite in_concat. split.
  - intros (l & L & I). apply in_map_iff in L. destruct L as (j & <- & J). apply in_map_iff in I. destruct I as (i & E & I). injection E as <- <-. apply in_seq in I, J. lia.
  - intros H. exists (map (fun i => (Z.of_nat i + 1, Z.of_nat (Z.to_nat (v - 1)) + 1)%Z) (seq 0 (Z.to_nat (v - 1)))). split; [apply in_map_iff; exists (Z.to_nat (v - 1)); split; [reflexivity|apply in_seq; lia]|].
    apply in_map_iff. exists (Z.to_nat (u - 1)). split; [f_equal; lia|apply in_seq; lia].
Qed.
Lemma dense_succs_from i : forall d a, map snd (filter (fun e : Z * Z => Z.eqb (fst e) (Z.of_nat i + 1)) (List.concat (map (fun j => map (fun i => (Z.of_nat i + 1, Z.of_nat j + 1)%Z) (seq 0 j)) (seq a d)))) = map (fun j => (Z.of_nat j + 1)%Z) (filter (fun j => i <? j) (seq a d)).
Proof.
  induction d as [|d IH]; intros a; [reflexivity|]. cbn [seq map List.concat]. rewrite filter_app, map_app, IH. cbn [filter]. rewrite filter_map, map_map. cbn [fst snd].
  rewrite (filter_one _ i (seq 0 a)); [|apply seq_NoDup|intros j _; rewrite Z.eqb_eq; lia].
  destruct (in_dec Nat.eq_dec i (seq 0 a)) as [W|W]; destruct (Nat.ltb_spec i a) as [U|U]; try reflexivity; exfalso; [apply in_seq in W; lia|apply W, in_seq; lia].
Qed.
Lemma dense_succs n i : succs (of_edges (dense_edges n)) (Z.of_nat i + 1) = map (fun j => (Z.of_nat j + 1)%Z) (filter (fun j => i <? j) (seq 0 n)).
Proof. apply dense_succs_from. Qed.
Lemma bfs_rest g seen : forall q, (forall u v, In u q -> edge g u v -> In v seen) -> breadth_first g q seen q.
Proof.
  induction q as [|u q IH]; intros H; [constructor|]. eapply bf_next; [reflexivity|]. replace (filter _ (succs g u)) with (@nil Z); [rewrite !app_nil_r; apply IH; intros w v W; apply H; right; exact W|].
  symmetry. destruct (filter _ (succs g u)) as [|v l] eqn:E; [reflexivity|]. exfalso. assert (I : In v (filter (fun v => if in_dec Z.eq_dec v seen then false else true) (succs g u))) by (rewrite E; left; reflexivity).
  apply filter_In in I. destruct I as (I & J). apply succs_iff in I. destruct (in_dec Z.eq_dec v seen) as [|N]; [discriminate|]. apply N, (H u v (or_introl eq_refl) I).
Qed.
Lemma dense_ok n : 2 <= n -> let g := of_edges (dense_edges n) in
  (forall m, NoDup (succs g m)) /\ topological g (up n) /\ breadth_first g [1%Z] [1%Z] (up n) /\ only g (fun m => forall u, ~ edge g u m) 1%Z /\ only g (fun m => forall v, ~ edge g m v) (Z.of_nat n).
Proof.
  intros L g. assert (ND : forall m, In m (nodes g) <-> (1 <= m <= Z.of_nat n)%Z).
  { intros m. unfold g. rewrite (proj1 (of_edges_nodes _) m). split.
    - intros ((u, v) & I & H). apply dense_edge in I. cbn [fst snd] in H. lia.
    - intros M. destruct (Z.eq_dec m 1) as [->|N]; [exists (1, 2)%Z; split; [apply dense_edge; lia|cbn; auto]|]. exists (1, m)%Z. split; [apply dense_edge; lia|cbn; auto]. }
  assert (SD : forall m, NoDup (succs g m)).
  { intros m. destruct (Z_lt_le_dec m 1) as [M|M].
    - replace (succs g m) with (@nil Z); [constructor|]. symmetry. apply is_nil_iff, no_succs. intros v E. apply dense_edge in E. lia.
    - replace m with (Z.of_nat (Z.to_nat (m - 1)) + 1)%Z by lia. unfold g. rewrite dense_succs. apply Injective_map_NoDup; [intros a b E; lia|apply NoDup_filter, seq_NoDup]. }
  split; [exact SD|]. split; [|split; [|split]].
  - split; [intros m; rewrite up_In, ND; lia|]. split; [apply up_NoDup|]. intros u v E. apply dense_edge in E. apply up_split; lia.
  - destruct n as [|[|n]]; [lia|lia|]. unfold up at 1. cbn [seq map]. change (Z.of_nat 0 + 1)%Z with 1%Z. eapply bf_next; [reflexivity|].
    assert (FE : filter (fun v => if in_dec Z.eq_dec v [1%Z] then false else true) (succs g 1) = map (fun i => (Z.of_nat i + 1)%Z) (seq 1 (S n))).
    { change (succs g 1) with (succs (of_edges (dense_edges (S (S n)))) (Z.of_nat 0 + 1)). rewrite dense_succs. cbn [seq filter Nat.ltb Nat.leb].
      assert (Q : forall l, (forall i, In i l -> 1 <= i) -> filter (fun v => if in_dec Z.eq_dec v [1%Z] then false else true) (map (fun j => (Z.of_nat j + 1)%Z) (filter (fun j => 0 <? j) l)) = map (fun i => (Z.of_nat i + 1)%Z) l).
      { induction l as [|i l IHl]; intros H; [reflexivity|]. cbn [filter map]. destruct (Nat.ltb_spec 0 i) as [_|B]; [|specialize (H i (or_introl eq_refl)); lia]. cbn [map filter].
        destruct (in_dec Z.eq_dec (Z.of_nat i + 1)%Z [1%Z]) as [[E|[]]|_]; [specialize (H i (or_introl eq_refl)); lia|]. f_equal. apply IHl. intros j J. apply H. right. exact J. }
      apply (Q (1 :: seq 2 n)). intros i [<-|I]; [lia|apply in_seq in I; lia]. }
    rewrite FE. cbn [app]. apply bfs_rest. intros u v U E. apply dense_edge in E. change (1%Z :: map (fun i => (Z.of_nat i + 1)%Z) (seq 1 (S n))) with (up (S (S n))). apply up_In. lia.
  - intros m. rewrite ND. split.
    + intros (M & H). destruct (Z.eq_dec m 1) as [E|N]; [exact E|]. exfalso. apply (H 1%Z). apply dense_edge. lia.
    + intros ->. split; [lia|]. intros u E. apply dense_edge in E. lia.
  - intros m. rewrite ND. split.
    + intros (M & H). destruct (Z.eq_dec m (Z.of_nat n)) as [E|N]; [exact E|]. exfalso. apply (H (Z.of_nat n)). apply dense_edge. lia.
    + intros ->. split; [lia|]. intros u E. apply dense_edge in E. lia.
Qed.
