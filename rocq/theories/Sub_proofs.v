(** Proofs about the graph of an architecture. *)
From Coq Require Import List Bool Arith String Lia Permutation.
From Verif Require Export Sub_model Sub_spec.
Import ListNotations.
Local Open Scope nat_scope.
Local Open Scope list_scope.
Local Notation length := List.length.

(** ** Edges and graphs *)
Lemma edge_eqb_spec e e' : edge_eqb e e' = true <-> e = e'.
Proof.
  unfold edge_eqb. destruct e as (a, b), e' as (c, d). cbn [fst snd]. rewrite andb_true_iff, !Nat.eqb_eq. split; [intros (-> & ->); reflexivity|intros [= -> ->]; auto].
Qed.
Lemma edge_eqb_refl e : edge_eqb e e = true.
Proof. apply edge_eqb_spec. reflexivity. Qed.
Lemma has_edge_spec G e : has_edge G e = true <-> In e (map fst G).
Proof.
  unfold has_edge. rewrite existsb_exists, in_map_iff. split; intros (x & H1 & H2); exists x.
  - apply edge_eqb_spec in H2. auto.
  - split; [assumption|]. apply edge_eqb_spec. assumption.
Qed.
(** a graph without some edges *)
Definition minus (G : graph) (es : list edge) : graph := filter (fun x => negb (existsb (edge_eqb (fst x)) es)) G.
Lemma minus_in G es x : In x (minus G es) <-> In x G /\ ~ In (fst x) es.
Proof.
  unfold minus. rewrite filter_In. split; intros (A & B); split; try exact A.
  - intros I. apply negb_true_iff in B. assert (existsb (edge_eqb (fst x)) es = true) by (apply existsb_exists; exists (fst x); split; [exact I|apply edge_eqb_refl]). congruence.
  - apply negb_true_iff. destruct (existsb (edge_eqb (fst x)) es) eqn:E; [|reflexivity]. exfalso. apply B. apply existsb_exists in E. destruct E as (y & I & E). apply edge_eqb_spec in E. subst y. exact I.
Qed.
Lemma minus_keys G es e : In e (map fst (minus G es)) <-> In e (map fst G) /\ ~ In e es.
Proof.
  rewrite !in_map_iff. split.
  - intros (x & <- & I). apply minus_in in I. destruct I as (I & N). split; [exists x; auto|exact N].
  - intros ((x & <- & I) & N). exists x. split; [reflexivity|]. apply minus_in. auto.
Qed.
Lemma minus_nodup G es : NoDup (map fst G) -> NoDup (map fst (minus G es)).
Proof.
  unfold minus. induction G as [|x G IH]; intros N; [constructor|]. inversion N as [|? ? A B]; subst. cbn [filter]. destruct (negb _); [|exact (IH B)]. cbn [map]. constructor; [|exact (IH B)].
  intros I. apply A. apply in_map_iff in I. destruct I as (y & E & I). apply filter_In in I. apply in_map_iff. exists y. tauto.
Qed.
Lemma minus_app G H es : minus (G ++ H) es = minus G es ++ minus H es.
Proof. unfold minus. apply filter_app. Qed.
Lemma minus_none G es : (forall x, In x G -> ~ In (fst x) es) -> minus G es = G.
Proof.
  intros D. induction G as [|x G IH]; [reflexivity|]. unfold minus in *. cbn [filter]. destruct (existsb (edge_eqb (fst x)) es) eqn:E.
  - exfalso. apply existsb_exists in E. destruct E as (y & I & E). apply edge_eqb_spec in E. subst y. apply (D x (or_introl eq_refl) I).
  - cbn [negb]. rewrite IH; [reflexivity|]. intros y I. apply D. right. exact I.
Qed.
Lemma minus_all G es : (forall x, In x G -> In (fst x) es) -> minus G es = [].
Proof.
  intros D. induction G as [|x G IH]; [reflexivity|]. unfold minus in *. cbn [filter]. destruct (existsb (edge_eqb (fst x)) es) eqn:E.
  - cbn [negb]. apply IH. intros y I. apply D. right. exact I.
  - exfalso. assert (existsb (edge_eqb (fst x)) es = true) by (apply existsb_exists; exists (fst x); split; [apply D; left; reflexivity|apply edge_eqb_refl]). congruence.
Qed.
Lemma minus_minus G a b : minus (minus G a) b = minus G (a ++ b).
Proof.
  induction G as [|x G IH]; [reflexivity|]. unfold minus in *. cbn [filter]. rewrite existsb_app. destruct (existsb (edge_eqb (fst x)) a); cbn [negb orb]; [exact IH|]. cbn [filter]. destruct (existsb (edge_eqb (fst x)) b); cbn [negb]; rewrite IH; reflexivity.
Qed.
Lemma minus_perm G H es : Permutation G H -> Permutation (minus G es) (minus H es).
Proof.
  unfold minus. intros P. induction P as [|x l l' P IH|x y l|l l' l'' P1 IH1 P2 IH2]; [constructor| | |exact (Permutation_trans IH1 IH2)].
  - cbn [filter]. destruct (negb _); [constructor; exact IH|exact IH].
  - cbn [filter]. destruct (negb (existsb (edge_eqb (fst x)) es)), (negb (existsb (edge_eqb (fst y)) es)); try apply Permutation_refl. constructor.
Qed.
Lemma minus_cons x G e : minus (x :: G) [e] = if edge_eqb (fst x) e then minus G [e] else x :: minus G [e].
Proof. unfold minus at 1. cbn [filter existsb]. destruct (edge_eqb (fst x) e); reflexivity. Qed.
Lemma remove_ok G e : In e (map fst G) -> remove_edge G e = Ok (minus G [e]).
Proof.
  intros I. unfold remove_edge. rewrite (proj2 (has_edge_spec G e) I). f_equal. apply filter_ext. intros x. cbn [existsb]. rewrite orb_false_r. reflexivity.
Qed.
Lemma set_ok G e s : In e (map fst G) -> NoDup (map fst G) -> exists G', set_op G e s = Ok G' /\ map fst G' = map fst G /\ Permutation G' (minus G [e] ++ [(e, Some s)]).
Proof.
  intros I N. unfold set_op. rewrite (proj2 (has_edge_spec G e) I). eexists. split; [reflexivity|]. split.
  - rewrite map_map. apply map_ext. intros x. destruct (edge_eqb (fst x) e); reflexivity.
  - induction G as [|x G IH]; [destruct I|]. inversion N as [|? ? A B]; subst. cbn [map]. rewrite minus_cons. destruct (edge_eqb (fst x) e) eqn:E.
    + apply edge_eqb_spec in E. rewrite (minus_none G [e]).
      * rewrite E. apply Permutation_trans with ((e, Some s) :: G); [|apply Permutation_cons_append]. constructor.
        replace (map (fun y : edge * option string => if edge_eqb (fst y) e then (fst y, Some s) else y) G) with G; [apply Permutation_refl|].
        assert (H : forall y, In y G -> (if edge_eqb (fst y) e then (fst y, Some s) else y) = y).
        { intros y J. destruct (edge_eqb (fst y) e) eqn:F; [|reflexivity]. apply edge_eqb_spec in F. exfalso. apply A. rewrite E, <- F. apply in_map. exact J. }
        symmetry. rewrite (map_ext_in _ (fun y => y) G H). apply map_id.
      * intros y J [F|[]]. apply A. rewrite E, F. apply in_map. exact J.
    + cbn [app]. constructor. apply IH; [|exact B]. destruct I as [F|I]; [|exact I]. exfalso. rewrite F, edge_eqb_refl in E. discriminate.
Qed.
Lemma add_all es : forall G, NoDup es -> (forall e, In e es -> ~ In e (map fst G)) -> fold_left add_edge es G = G ++ map (fun e => (e, None)) es.
Proof.
  induction es as [|e es IH]; intros G N D; cbn [fold_left map]; [rewrite app_nil_r; reflexivity|]. inversion N as [|? ? A B]; subst. unfold add_edge at 2. destruct (has_edge G e) eqn:E.
  - exfalso. apply has_edge_spec in E. apply (D e (or_introl eq_refl) E).
  - rewrite IH; [rewrite <- app_assoc; reflexivity|exact B|]. intros e' I J. rewrite map_app in J. apply in_app_or in J. destruct J as [J|[J|[]]]; [apply (D e' (or_intror I) J)|]. cbn in J. subst e'. contradiction.
Qed.
Lemma nodup_map_in {A B} (f : A -> B) l : (forall x y, In x l -> In y l -> f x = f y -> x = y) -> NoDup l -> NoDup (map f l).
Proof.
  induction l as [|x l IH]; intros H N; [constructor|]. inversion N as [|? ? A1 A2]; subst. cbn [map]. constructor.
  - intros I. apply in_map_iff in I. destruct I as (y & E & I). assert (y = x) by (apply H; [right; exact I|left; reflexivity|exact E]). subst y. contradiction.
  - apply IH; [|exact A2]. intros y z I J. apply H; right; assumption.
Qed.

Lemma begin_end_spec el b z : begin_end el = Ok (b, z) -> In b (map fst el) /\ In z (map snd el) /\ ~ In b (map snd el) /\ ~ In z (map fst el).
Proof.
  unfold begin_end. destruct (filter _ (nodup Nat.eq_dec (map fst el))) as [|b' [|? ?]] eqn:EB; try discriminate. destruct (filter _ (nodup Nat.eq_dec (map snd el))) as [|z' [|? ?]] eqn:EZ; try discriminate. intros H.
  assert (b' = b /\ z' = z) as (-> & ->) by (split; congruence).
  assert (IB : In b [b]) by (left; reflexivity). rewrite <- EB in IB. apply filter_In in IB. destruct IB as (IB & NB).
  assert (IZ : In z [z]) by (left; reflexivity). rewrite <- EZ in IZ. apply filter_In in IZ. destruct IZ as (IZ & NZ).
  assert (X : forall n l, negb (existsb (Nat.eqb n) (nodup Nat.eq_dec l)) = true -> ~ In n l).
  { intros n l Q J. apply negb_true_iff in Q. assert (existsb (Nat.eqb n) (nodup Nat.eq_dec l) = true); [|congruence]. apply existsb_exists. exists n. split; [apply nodup_In; exact J|apply Nat.eqb_refl]. }
  repeat split; try (apply (nodup_In Nat.eq_dec); assumption); apply X; assumption.
Qed.
Lemma lex_max_fold el x y : In (x, y) el -> (forall u v, In (u, v) el -> u < x \/ u = x /\ v <= y) -> (1 <= x) -> fold_right lex_max (0, 0) el = (x, y).
Proof.
  intros I M P.
  assert (H : forall l, (fold_right lex_max (0, 0) l = (0, 0) \/ In (fold_right lex_max (0, 0) l) l) /\ forall u v, In (u, v) l -> u < fst (fold_right lex_max (0, 0) l) \/ u = fst (fold_right lex_max (0, 0) l) /\ v <= snd (fold_right lex_max (0, 0) l)).
  { induction l as [|(a, c) l (IH1 & IH2)]; [split; [left; reflexivity|intros u v []]|]. cbn [fold_right]. destruct (fold_right lex_max (0, 0) l) as (m, n). cbn [fst snd] in IH2. unfold lex_max. cbn [fst snd]. split.
    - destruct (_ || _) eqn:E; [|right; left; reflexivity]. destruct IH1 as [IH1|IH1]; [left; exact IH1|right; right; exact IH1].
    - intros u v [J|J]; [assert (a = u /\ c = v) as (-> & ->) by (split; congruence)|specialize (IH2 u v J)];
        (destruct (Nat.ltb_spec a m) || destruct (Nat.ltb_spec u m)); cbn [orb]; repeat match goal with |- context [Nat.eqb ?p ?q] => destruct (Nat.eqb_spec p q) | |- context [Nat.ltb ?p ?q] => destruct (Nat.ltb_spec p q) end; cbn [orb andb fst snd]; lia. }
  destruct (H el) as ([E|J] & G); specialize (G x y I).
  - rewrite E in G. cbn in G. lia.
  - destruct (fold_right lex_max (0, 0) el) as (m, n). cbn [fst snd] in G. pose proof (M m n J). f_equal; lia.
Qed.
(** what the steps use of a topology *)
Definition usable (el : list edge) (b z : nat) : Prop :=
  NoDup el /\ (forall u v, In (u, v) el -> 1 <= u /\ 1 <= v /\ u <> v /\ u <> z /\ v <> b /\ u <= max_max el /\ v <= max_max el) /\ begin_end el = Ok (b, z) /\ b <> z.
Lemma good_usable el b z : good_edges el b z -> usable el b z.
Proof.
  intros (N & H & BE & x & y & I & M). destruct (begin_end_spec el b z BE) as (IB & IZ & NB & NZ).
  assert (E : max_max el = Nat.max x y). { unfold max_max. rewrite (lex_max_fold el x y I); [reflexivity|intros u v J; apply M; exact J|apply (H x y I)]. }
  split; [exact N|]. split; [|split; [exact BE|intros ->; contradiction]]. intros u v J. rewrite E. destruct (H u v J) as (A & B & C). destruct (M u v J) as (_ & D & F). repeat split; try assumption.
  - intros ->. apply NZ. exact (in_map fst _ _ J).
  - intros ->. apply NB. exact (in_map snd _ _ J).
Qed.

(** ** Steps *)
Definition inv (G : graph) (q : list edge) (off : nat) : Prop :=
  NoDup (map fst G) /\ NoDup q /\ (forall e, In e q -> In e (map fst G)) /\ (forall u v, In (u, v) (map fst G) -> u <= off /\ v <= off /\ u <> v).
Lemma nodup_app_disjoint {A} (a b : list A) : NoDup (a ++ b) -> forall x, In x a -> ~ In x b.
Proof.
  induction a as [|y a IH]; intros N x K J; [destruct K|]. cbn in N. inversion N as [|? ? A1 A2]; subst. destruct K as [->|I].
  - apply A1. apply in_or_app. right. exact J.
  - exact (IH A2 x I J).
Qed.
Section Sub.
  Variables (edges_of : string -> option (list edge)) (zero : string -> bool).
  Notation run := (run edges_of zero).
  Notation step := (step edges_of zero).
  Notation kept := (kept zero).
  Lemma inv_pop G e q off : inv G (e :: q) off -> inv (minus G [e]) q off.
  Proof.
    intros (A & B & C & D). inversion B as [|? ? B1 B2]; subst. split; [apply minus_nodup; exact A|]. split; [exact B2|]. split.
    - intros e' I. apply minus_keys. split; [apply C; right; exact I|]. intros [->|[]]. contradiction.
    - intros u v I. apply minus_keys in I. apply D. tauto.
  Qed.
  Lemma inv_same_keys G G' q q' off : map fst G' = map fst G -> inv G (q' ++ q) off -> inv G' q off.
  Proof.
    intros K (A & B & C & D). unfold inv. rewrite K. split; [exact A|]. split; [clear -B; induction q' as [|x q' IH]; [exact B|inversion B; auto]|]. split; [|exact D]. intros e I. apply C. apply in_or_app. right. exact I.
  Qed.
  Definition node_of (el : list edge) (n : nat) : Prop := In n (map fst el ++ map snd el).
  Lemma node_ends el a c : In (a, c) el -> node_of el a /\ node_of el c.
  Proof. intros I. split; apply in_or_app; [left; exact (in_map fst _ _ I)|right; exact (in_map snd _ _ I)]. Qed.
  Lemma node_range el b z n : usable el b z -> node_of el n -> 1 <= n <= max_max el.
  Proof.
    intros (_ & H & _) I. apply in_app_or in I. destruct I as [I|I]; apply in_map_iff in I; destruct I as ((a, c) & E & I); cbn in E; subst; destruct (H _ _ I) as (? & ? & ? & ? & ? & ? & ?); lia.
  Qed.
  Lemma renamed_inj el b z u v off : usable el b z -> u <= off -> v <= off -> u <> v ->
    forall n m, node_of el n -> node_of el m -> renamed b z u v off n = renamed b z u v off m -> n = m.
  Proof.
    intros GE U V UV n m N M E. pose proof (node_range el b z n GE N). pose proof (node_range el b z m GE M). unfold renamed in E.
    destruct (Nat.eqb_spec n b), (Nat.eqb_spec m b); try lia; destruct (Nat.eqb_spec n z), (Nat.eqb_spec m z); lia.
  Qed.
  Lemma new_fresh el b z u v off G q : usable el b z -> inv G ((u, v) :: q) off ->
    NoDup (renamed_edges b z u v off el) /\ (forall e, In e (renamed_edges b z u v off el) -> ~ In e (map fst (minus G [(u, v)]))) /\
    (forall e, In e (renamed_edges b z u v off el) -> fst e <= off + max_max el /\ snd e <= off + max_max el /\ fst e <> snd e).
  Proof.
    intros GE IN. destruct IN as (A & B & C & D). destruct (D u v (C (u, v) (or_introl eq_refl))) as (U & V & UV). pose proof (renamed_inj el b z u v off GE U V UV) as INJ. split; [|split].
    - apply nodup_map_in; [|exact (proj1 GE)]. intros (a, c) (a', c') I J [= E1 E2]. cbn [fst snd] in *. destruct (node_ends el a c I), (node_ends el a' c' J). f_equal; apply INJ; assumption.
    - intros e I J. apply in_map_iff in I. destruct I as ((a, c) & <- & I). cbn [fst snd] in *. apply minus_keys in J. destruct J as (J & N). apply N. left. destruct (D _ _ J) as (L1 & L2 & _).
      destruct GE as (_ & GE & _ & BZ). destruct (GE a c I) as (P1 & P2 & P3 & P4 & P5 & P6 & P7). unfold renamed in *.
      destruct (Nat.eqb_spec a b), (Nat.eqb_spec a z), (Nat.eqb_spec c b), (Nat.eqb_spec c z); try lia; reflexivity.
    - intros e I. apply in_map_iff in I. destruct I as ((a, c) & <- & I). cbn [fst snd]. destruct (node_ends el a c I) as (NA & NC). pose proof (node_range el b z a GE NA). pose proof (node_range el b z c GE NC).
      split; [unfold renamed; destruct (Nat.eqb a b), (Nat.eqb a z); lia|]. split; [unfold renamed; destruct (Nat.eqb c b), (Nat.eqb c z); lia|].
      intros E. apply INJ in E; [|assumption|assumption]. destruct GE as (_ & GE & _). destruct (GE a c I) as (_ & _ & P & _). contradiction.
  Qed.
  Lemma inv_topo el b z u v off G q : usable el b z -> inv G ((u, v) :: q) off ->
    let new := renamed_edges b z u v off el in
    fold_left add_edge new (minus G [(u, v)]) = minus G [(u, v)] ++ map (fun e => (e, None)) new /\
    inv (minus G [(u, v)] ++ map (fun e => (e, None)) new) (new ++ q) (off + max_max el).
  Proof.
    intros GE IN new. destruct (new_fresh el b z u v off G q GE IN) as (F1 & F2 & F3). fold new in F1, F2, F3. split; [apply add_all; assumption|].
    destruct (inv_pop _ _ _ _ IN) as (A & B & C & D). unfold inv. rewrite map_app, map_map. cbn [fst]. rewrite map_id.
    assert (NA : forall (X : Type) (a b : list X), NoDup a -> NoDup b -> (forall x, In x a -> ~ In x b) -> NoDup (a ++ b)).
    { intros X a c Na Nb Dj. induction a as [|x a IH]; [exact Nb|]. inversion Na; subst. cbn [app]. constructor; [intros I; apply in_app_or in I; destruct I as [I|I]; [contradiction|apply (Dj x (or_introl eq_refl) I)]|]. apply IH; [assumption|]. intros y I. apply Dj. right. exact I. }
    split; [apply NA; [exact A|exact F1|intros e I J; apply (F2 e J I)]|]. split; [apply NA; [exact F1|exact B|intros e I J; apply (F2 e I); apply C; exact J]|]. split.
    - intros e I. apply in_or_app. apply in_app_or in I. destruct I as [I|I]; [right; exact I|left; apply C; exact I].
    - intros a c I. apply in_app_or in I. destruct I as [I|I]; [destruct (D a c I) as (? & ? & ?); repeat split; try lia; assumption|]. exact (F3 (a, c) I).
  Qed.

  (** ** Trees *)
  Definition done (t : tree) : Prop := fits edges_of t -> forall G e q off rest, inv G (e :: q) off ->
    exists G' off' inner l, run (terminals t ++ rest) (G, e :: q, off) = run rest (G', q, off') /\ off <= off' /\ graph_of edges_of t e inner l /\
      (forall n, In n inner -> off < n <= off') /\ Permutation G' (minus G [e] ++ kept l) /\ inv G' q off'.
  Lemma kept_app l1 l2 : kept (l1 ++ l2) = kept l1 ++ kept l2.
  Proof. unfold Sub_spec.kept. rewrite filter_app, map_app. reflexivity. Qed.
  Fixpoint all_fit (cs : list tree) : Prop := match cs with [] => True | c :: cs => fits edges_of c /\ all_fit cs end.
  Lemma children cs : Forall done cs -> all_fit cs -> forall es G q off rest, length cs = length es -> inv G (es ++ q) off ->
    exists G' off' inner l, run (flat_map terminals cs ++ rest) (G, es ++ q, off) = run rest (G', q, off') /\ off <= off' /\ graphs_of edges_of cs es inner l /\
      (forall n, In n inner -> off < n <= off') /\ Permutation G' (minus G es ++ kept l) /\ inv G' q off'.
  Proof.
    induction cs as [|c cs IH]; intros F AF es G q off rest L IN; destruct es as [|e es]; try discriminate L.
    - exists G, off, [], []. split; [reflexivity|]. split; [lia|]. split; [constructor|]. split; [intros n []|]. split; [|exact IN].
      rewrite (minus_none G []) by (intros x _ []). cbn. rewrite app_nil_r. apply Permutation_refl.
    - injection L as L. inversion F as [|? ? F1 F2]; subst. destruct AF as (AF1 & AF2). cbn [flat_map]. rewrite <- app_assoc.
      destruct (F1 AF1 G e (es ++ q) off (flat_map terminals cs ++ rest) IN) as (G1 & off1 & i1 & l1 & R1 & O1 & GR1 & N1 & P1 & IN1).
      destruct (IH F2 AF2 es G1 q off1 rest L IN1) as (G2 & off2 & i2 & l2 & R2 & O2 & GR2 & N2 & P2 & IN2).
      exists G2, off2, (i1 ++ i2), (l1 ++ l2). split; [cbn [app]; rewrite R1; exact R2|]. split; [lia|]. split; [|split; [|split; [|exact IN2]]].
      + constructor; [exact GR1|exact GR2|]. intros n I J. pose proof (N1 n I). pose proof (N2 n J). lia.
      + intros n I. apply in_app_or in I. destruct I as [I|I]; [pose proof (N1 n I)|pose proof (N2 n I)]; lia.
      + rewrite kept_app. apply Permutation_trans with (1 := P2). rewrite app_assoc. apply Permutation_app_tail.
        apply Permutation_trans with (1 := minus_perm _ _ es P1). rewrite minus_app, minus_minus. cbn [app]. apply Permutation_app_head.
        rewrite minus_none; [apply Permutation_refl|]. intros x I J.
        assert (ND : NoDup (map fst (minus G [e] ++ kept l1))). { apply Permutation_NoDup with (map fst G1); [apply Permutation_map; exact P1|exact (proj1 IN1)]. }
        rewrite map_app in ND. destruct IN as (A & B & C & D). cbn [app] in B. inversion B as [|? ? B1 B2]; subst.
        apply (nodup_app_disjoint _ _ ND (fst x)); [|apply in_map; exact I]. apply minus_keys. split; [apply C; right; apply in_or_app; left; exact J|]. intros [E|[]]. apply B1. rewrite E. apply in_or_app. left. exact J.
  Qed.
  Lemma tree_ind' (P : tree -> Prop) : (forall s, P (Op s)) -> (forall s cs, Forall P cs -> P (Topo s cs)) -> forall t, P t.
  Proof.
    intros H1 H2. fix go 1. intros [s|s cs]; [apply H1|]. apply H2. induction cs as [|c cs IH]; [constructor|]. constructor; [apply go|exact IH].
  Qed.
  Lemma all_done t : done t.
  Proof.
    induction t as [s|s cs IH] using tree_ind'; intros FT G e q off rest IN.
    - cbn [terminals app Sub_model.run]. cbn in FT. unfold Sub_model.step at 1. rewrite FT. pose proof IN as (A & B & C & D). pose proof (C e (or_introl eq_refl)) as I. destruct (zero s) eqn:Z.
      + rewrite (remove_ok G e I). cbn [bind]. exists (minus G [e]), off, [], [(e, s)]. split; [reflexivity|]. split; [lia|]. split; [constructor|]. split; [intros n []|]. split; [|apply inv_pop; exact IN].
        unfold Sub_spec.kept. cbn [filter snd]. rewrite Z. cbn. rewrite app_nil_r. apply Permutation_refl.
      + destruct (set_ok G e s I A) as (G' & E & K & P). rewrite E. cbn [bind]. exists G', off, [], [(e, s)]. split; [reflexivity|]. split; [lia|]. split; [constructor|]. split; [intros n []|]. split.
        * unfold Sub_spec.kept. cbn [filter snd]. rewrite Z. exact P.
        * exact (inv_same_keys G G' q [e] off K IN).
    - destruct FT as ((el & b & z & E & GE & L) & AF). apply good_usable in GE. destruct e as (u, v). cbn [terminals app Sub_model.run]. unfold Sub_model.step at 1. rewrite E. rewrite (proj1 (proj2 (proj2 GE))). cbn [bind].
      pose proof IN as (A & B & C & D). rewrite (remove_ok G (u, v) (C _ (or_introl eq_refl))). cbn [bind]. destruct (inv_topo el b z u v off G q GE IN) as (AE & IN1).
      set (new := renamed_edges b z u v off el) in *. assert (LN : length cs = length new) by (unfold new, renamed_edges; rewrite map_length; exact L).
      destruct (children cs IH AF new _ q _ rest LN IN1) as (G' & off' & inner & l & R & O & GR & N & P & IN').
      destruct (D u v (C (u, v) (or_introl eq_refl))) as (U & V & UV).
      exists G', off', (map (renamed b z u v off) (filter (fun n => negb (Nat.eqb n b) && negb (Nat.eqb n z)) (map fst el ++ map snd el)) ++ inner), l.
      assert (OWN : forall n, In n (map (renamed b z u v off) (filter (fun n => negb (Nat.eqb n b) && negb (Nat.eqb n z)) (map fst el ++ map snd el))) -> off < n <= off + max_max el).
      { intros n I. apply in_map_iff in I. destruct I as (m & <- & I). apply filter_In in I. destruct I as (I & Q). apply andb_prop in Q. destruct Q as (Q1 & Q2). apply negb_true_iff in Q1, Q2. pose proof (node_range el b z m GE I). unfold renamed. rewrite Q1, Q2. lia. }
      split; [exact (eq_trans (f_equal (fun g => run (flat_map terminals cs ++ rest) (g, new ++ q, off + max_max el)) AE) R)|]. split; [lia|]. split; [|split; [|split; [|exact IN']]].
      + apply GTopo with (el := el) (b := b) (z := z) (f := renamed b z u v off).
        * exact E.
        * exact (proj1 (proj2 (proj2 GE))).
        * unfold renamed. rewrite Nat.eqb_refl. reflexivity.
        * unfold renamed. rewrite Nat.eqb_refl. destruct (Nat.eqb_spec z b) as [Q|_]; [|reflexivity]. exfalso. destruct GE as (_ & _ & _ & BZ). apply BZ. symmetry. exact Q.
        * intros n I NB NZ. apply in_map. apply filter_In. split; [exact I|]. apply Nat.eqb_neq in NB, NZ. rewrite NB, NZ. reflexivity.
        * exact (renamed_inj el b z u v off GE U V UV).
        * exact GR.
        * intros n I. cbn [fst snd]. apply in_app_or in I. destruct I as [I|I]; [pose proof (OWN n I)|pose proof (N n I)]; lia.
        * intros n I J. pose proof (OWN n I). pose proof (N n J). lia.
      + intros n I. apply in_app_or in I. destruct I as [I|I]; [pose proof (OWN n I)|pose proof (N n I)]; lia.
      + apply Permutation_trans with (1 := P). apply Permutation_app_tail. rewrite minus_app. rewrite (minus_all (map _ new)); [|intros x I; apply in_map_iff in I; destruct I as (e & <- & I); exact I].
        rewrite app_nil_r. rewrite minus_none; [apply Permutation_refl|]. intros x I J. destruct (new_fresh el b z u v off G q GE IN) as (_ & F2 & _). apply (F2 (fst x) J). apply in_map. exact I.
  Qed.
  Lemma built_tree s cs : fits edges_of (Topo s cs) -> exists el b z G off inner l, edges_of s = Some el /\ begin_end el = Ok (b, z) /\
    built edges_of zero (terminals (Topo s cs)) = Ok (G, [], off) /\ graph_of edges_of (Topo s cs) (b, z) inner l /\ Permutation G (kept l) /\ NoDup (map fst G).
  Proof.
    intros ((el & b & z & E & GE & L) & AF). apply good_usable in GE. unfold built. cbn [terminals Sub_model.run].
    assert (ID : map (fun e : edge => (fst e + 0, snd e + 0)) el = el). { rewrite (map_ext _ (fun e => e)); [apply map_id|]. intros (a, c). cbn [fst snd]. rewrite !Nat.add_0_r. reflexivity. }
    assert (AA : fold_left add_edge el [] = map (fun e => (e, None)) el) by (apply (add_all el []); [exact (proj1 GE)|intros e _ []]).
    assert (ST : step ([], [], 0) s = Ok (map (fun e => (e, None)) el, el, max_max el)).
    { unfold Sub_model.step. rewrite E. rewrite (proj1 (proj2 (proj2 GE))). cbn [bind].
      refine (eq_trans (f_equal (fun n => Ok (fold_left add_edge n [], n, max_max el)) ID) _). rewrite AA. reflexivity. }
    rewrite ST. cbn [bind].
    assert (IN : inv (map (fun e => (e, None)) el) (el ++ []) (max_max el)).
    { unfold inv. rewrite map_map, app_nil_r. cbn [fst]. rewrite map_id. pose proof GE as (N & H & _). split; [exact N|]. split; [exact N|]. split; [auto|]. intros u v I. destruct (H u v I) as (? & ? & ? & ? & ? & ? & ?). auto. }
    assert (FD : Forall done cs) by (apply Forall_forall; intros c _; apply all_done).
    destruct (children cs FD AF el _ [] _ [] L IN) as (G' & off' & inner & l & R & O & GR & N & P & IN').
    rewrite !app_nil_r in R. exists el, b, z, G', off', (filter (fun n => negb (Nat.eqb n b) && negb (Nat.eqb n z)) (map fst el ++ map snd el) ++ inner), l.
    assert (BZ : node_of el b /\ node_of el z).
    { destruct GE as (_ & _ & BE & _). unfold begin_end in BE.
      destruct (filter _ (nodup Nat.eq_dec (map fst el))) as [|b' [|? ?]] eqn:EB; try discriminate. destruct (filter _ (nodup Nat.eq_dec (map snd el))) as [|z' [|? ?]] eqn:EZ; try discriminate.
      assert (b' = b /\ z' = z) as (-> & ->) by (split; congruence). split; apply in_or_app.
      - left. assert (I : In b [b]) by (left; reflexivity). rewrite <- EB in I. apply filter_In in I. apply (nodup_In Nat.eq_dec). tauto.
      - right. assert (I : In z [z]) by (left; reflexivity). rewrite <- EZ in I. apply filter_In in I. apply (nodup_In Nat.eq_dec). tauto. }
    pose proof (node_range el b z b GE (proj1 BZ)) as RB. pose proof (node_range el b z z GE (proj2 BZ)) as RZ.
    split; [exact E|]. split; [exact (proj1 (proj2 (proj2 GE)))|]. split; [exact R|]. split; [|split; [|exact (proj1 IN')]].
    - assert (MI : map (fun e : edge => (fst e, snd e)) el = el) by (rewrite (map_ext _ (fun e => e)); [apply map_id|intros (a, c); reflexivity]).
      apply GTopo with (el := el) (b := b) (z := z) (f := fun n => n); try reflexivity.
      + exact E.
      + exact (proj1 (proj2 (proj2 GE))).
      + intros n I NB NZ. apply filter_In. split; [exact I|]. apply Nat.eqb_neq in NB, NZ. rewrite NB, NZ. reflexivity.
      + auto.
      + exact (eq_ind el (fun es => graphs_of edges_of cs es inner l) GR _ (eq_sym MI)).
      + intros n I. cbn [fst snd]. apply in_app_or in I. destruct I as [I|I].
        * apply filter_In in I. destruct I as (_ & Q). apply andb_prop in Q. destruct Q as (Q1 & Q2). apply negb_true_iff in Q1, Q2. apply Nat.eqb_neq in Q1, Q2. auto.
        * pose proof (N n I). lia.
      + intros n I J. pose proof (N n J). apply filter_In in I. pose proof (node_range el b z n GE (proj1 I)). lia.
    - rewrite minus_all in P; [exact P|]. intros x I. apply in_map_iff in I. destruct I as (e & <- & I). exact I.
  Qed.
End Sub.

(** ** Operations *)
Scheme graph_of_mut := Induction for graph_of Sort Prop with graphs_of_mut := Induction for graphs_of Sort Prop.
Lemma graph_operations edges_of t e inner l : graph_of edges_of t e inner l -> map snd l = operations t.
Proof.
  intros H. induction H using graph_of_mut with (P0 := fun cs es inner l (_ : graphs_of edges_of cs es inner l) => map snd l = flat_map operations cs); try reflexivity.
  - exact IHgraph_of.
  - rewrite map_app. cbn [flat_map]. rewrite IHgraph_of, IHgraph_of0. reflexivity.
Qed.

(** ** Paths *)
Scheme word_mut := Induction for word Sort Prop with walk_mut := Induction for walk Sort Prop.
Inductive lpath (l : list (edge * string)) : nat -> nat -> list string -> Prop :=
| LNil u : lpath l u u []
| LCons u v w s ws : In ((u, v), s) l -> lpath l v w ws -> lpath l u w (s :: ws).
Lemma lpath_incl l l' u v ws : incl l l' -> lpath l u v ws -> lpath l' u v ws.
Proof. intros I H. induction H; [constructor|]. econstructor; [apply I; eassumption|assumption]. Qed.
Lemma lpath_app l u v w a b : lpath l u v a -> lpath l v w b -> lpath l u w (a ++ b).
Proof. intros H K. induction H; [exact K|]. cbn [app]. econstructor; [eassumption|]. auto. Qed.
Lemma path_kept zero l u v ws : path (kept zero l) u v ws <-> lpath l u v ws /\ Forall (fun s => zero s = false) ws.
Proof.
  split.
  - intros H. induction H as [|u v w s ws I H (IH1 & IH2)]; [split; constructor|]. unfold kept in I. apply in_map_iff in I. destruct I as ((e, s') & E & I). cbn [fst snd] in E. apply filter_In in I. destruct I as (I & Z). cbn [snd] in Z.
    assert (e = (u, v) /\ s' = s) as (-> & ->) by (split; congruence). split; [econstructor; eassumption|]. constructor; [apply negb_true_iff; exact Z|exact IH2].
  - intros (H & F). induction H as [|u v w s ws I H IH]; [constructor|]. inversion F as [|? ? Z F']; subst. econstructor; [|exact (IH F')]. unfold kept. apply in_map_iff. exists ((u, v), s). split; [reflexivity|]. apply filter_In. split; [exact I|]. cbn [snd]. rewrite Z. reflexivity.
Qed.
Lemma path_perm G G' u v ws : Permutation G G' -> path G u v ws -> path G' u v ws.
Proof. intros P H. induction H; [constructor|]. econstructor; [apply (Permutation_in _ P); eassumption|assumption]. Qed.
Section Paths.
  Variable edges_of : string -> option (list edge).
  Notation graph_of := (graph_of edges_of).
  Notation graphs_of := (graphs_of edges_of).
  Lemma graphs_of_ends cs es inner l : graphs_of cs es inner l -> length cs = length es.
  Proof. intros H. induction H; [reflexivity|]. cbn [length]. congruence. Qed.
  (** edges of a tree's graph come from the first end or new nodes, and go to the last end or new ones *)
  Lemma graph_nodes t e inner l : graph_of t e inner l -> forall a c s, In ((a, c), s) l -> (a = fst e \/ In a inner) /\ (c = snd e \/ In c inner).
  Proof.
    intros H. induction H using graph_of_mut with (P0 := fun cs es inner l (_ : graphs_of cs es inner l) => forall a c s, In ((a, c), s) l -> exists e, In e es /\ (a = fst e \/ In a inner) /\ (c = snd e \/ In c inner)).
    - intros x y s' [I|[]]. assert (e = (x, y)) by congruence. subst e. cbn. auto.
    - intros x y s' I. destruct (IHgraph_of x y s' I) as (e' & I' & A & C). apply in_map_iff in I'. destruct I' as ((u, v) & <- & I'). cbn [fst snd] in A, C.
      match goal with H : begin_end el = Ok (b, z) |- _ => destruct (begin_end_spec el b z H) as (_ & _ & NB & NZ) end.
      assert (NU : In u (map fst el ++ map snd el)) by (apply in_or_app; left; exact (in_map fst _ _ I')). assert (NV : In v (map fst el ++ map snd el)) by (apply in_or_app; right; exact (in_map snd _ _ I')).
      assert (UZ : u <> z) by (intros ->; apply NZ; exact (in_map fst _ _ I')). assert (VB : v <> b) by (intros ->; apply NB; exact (in_map snd _ _ I')). split.
      + destruct A as [->|A]; [|right; apply in_or_app; right; exact A]. destruct (Nat.eq_dec u b) as [->|UB]; [left; assumption|right; apply in_or_app; left; auto].
      + destruct C as [->|C]; [|right; apply in_or_app; right; exact C]. destruct (Nat.eq_dec v z) as [->|VZ]; [left; assumption|right; apply in_or_app; left; auto].
    - intros x y s [].
    - intros x y s I. apply in_app_or in I. destruct I as [I|I].
      + destruct (IHgraph_of x y s I) as (A & C). exists e. split; [left; reflexivity|]. split; [destruct A as [A|A]; [left; exact A|right; apply in_or_app; left; exact A]|destruct C as [A'|A']; [left; exact A'|right; apply in_or_app; left; exact A']].
      + destruct (IHgraph_of0 x y s I) as (e' & I' & A & C). exists e'. split; [right; exact I'|]. split; [destruct A as [A|A]; [left; exact A|right; apply in_or_app; right; exact A]|destruct C as [A'|A']; [left; exact A'|right; apply in_or_app; right; exact A']].
  Qed.
  Lemma graphs_nodes cs es inner l : graphs_of cs es inner l -> forall a c s, In ((a, c), s) l -> (exists e, In e es /\ a = fst e) \/ In a inner.
  Proof.
    intros H. induction H as [|c cs e es i1 i2 l1 l2 G1 G2 IH D]; intros a c' s I; [destruct I|]. apply in_app_or in I. destruct I as [I|I].
    - destruct (graph_nodes _ _ _ _ G1 a c' s I) as ([A|A] & _); [left; exists e; split; [left; reflexivity|exact A]|right; apply in_or_app; left; exact A].
    - destruct (IH a c' s I) as [(e' & I' & A)|A]; [left; exists e'; split; [right; exact I'|exact A]|right; apply in_or_app; right; exact A].
  Qed.
  (** the subtree an edge belongs to *)
  Lemma graphs_split cs es inner l : graphs_of cs es inner l -> (forall e, In e es -> ~ In (fst e) inner) ->
    forall x, In x l -> exists c ec ic lc, In (ec, c) (combine es cs) /\ graph_of c ec ic lc /\ incl ic inner /\ In x lc /\ (forall y, In y l -> In (fst (fst y)) ic -> In y lc).
  Proof.
    intros H. induction H as [|c cs e es i1 i2 l1 l2 G1 G2 IH D]; intros NE x I; [destruct I|]. apply in_app_or in I. destruct I as [I|I].
    - exists c, e, i1, l1. split; [left; reflexivity|]. split; [exact G1|]. split; [intros n J; apply in_or_app; left; exact J|]. split; [exact I|]. intros ((a, c'), s) J K. cbn [fst] in K. apply in_app_or in J. destruct J as [J|J]; [exact J|]. exfalso.
      destruct (graphs_nodes _ _ _ _ G2 a c' s J) as [(e' & I' & ->)|A]; [|exact (D a K A)]. apply (NE e' (or_intror I')). apply in_or_app. left. exact K.
    - destruct (IH (fun e' I' J => NE e' (or_intror I') (in_or_app _ _ _ (or_intror J))) x I) as (c0 & ec & ic & lc & A1 & A2 & A3 & A4 & A5). exists c0, ec, ic, lc. split; [right; exact A1|]. split; [exact A2|]. split; [intros n J; apply in_or_app; right; apply A3; exact J|]. split; [exact A4|].
      intros ((a, c'), s) J K. cbn [fst] in K. apply in_app_or in J. destruct J as [J|J]; [|exact (A5 _ J K)]. exfalso.
      destruct (graph_nodes _ _ _ _ G1 a c' s J) as ([->|A] & _); [apply (NE e (or_introl eq_refl)); apply in_or_app; right; apply A3; exact K|exact (D a A (A3 _ K))].
  Qed.
  Lemma graphs_member cs es inner l : graphs_of cs es inner l -> forall ec c, In (ec, c) (combine es cs) -> exists ic lc, graph_of c ec ic lc /\ incl lc l.
  Proof.
    intros H. induction H as [|c cs e es i1 i2 l1 l2 G1 G2 IH D]; intros ec c0 I; [destruct I|]. destruct I as [I|I].
    - assert (e = ec /\ c = c0) as (-> & ->) by (split; congruence). exists i1, l1. split; [exact G1|]. intros x J. apply in_or_app. left. exact J.
    - destruct (IH ec c0 I) as (ic & lc & A & B). exists ic, lc. split; [exact A|]. intros x J. apply in_or_app. right. apply B. exact J.
  Qed.
  Lemma combine_map {A B C} (f : A -> B) (es : list A) (cs : list C) e c : In (e, c) (combine es cs) -> In (f e, c) (combine (map f es) cs).
  Proof.
    revert cs. induction es as [|x es IH]; intros cs I; [destruct I|]. destruct cs as [|y cs]; [destruct I|]. destruct I as [I|I]; [left|right; apply IH; exact I].
    exact (f_equal (fun p => (f (fst p), snd p)) I).
  Qed.
  Lemma combine_map_inv {A B C} (f : A -> B) (es : list A) (cs : list C) x c : In (x, c) (combine (map f es) cs) -> exists e, x = f e /\ In (e, c) (combine es cs).
  Proof.
    revert cs. induction es as [|e es IH]; intros cs I; [destruct I|]. destruct cs as [|y cs]; [destruct I|]. destruct I as [I|I].
    - exists e. split; [exact (f_equal fst (eq_sym I))|]. left. f_equal. exact (f_equal snd I).
    - destruct (IH cs I) as (e' & E & J). exists e'. split; [exact E|right; exact J].
  Qed.
  (** every sequence of the tree is one along a path *)
  Lemma word_path t ws : word edges_of t ws -> forall e inner l, graph_of t e inner l -> lpath l (fst e) (snd e) ws.
  Proof.
    intros H. induction H using word_mut with (P0 := fun el u z ws (_ : walk edges_of el u z ws) => forall l f, (forall c u v, In ((u, v), c) el -> exists ic lc, graph_of c (f u, f v) ic lc /\ incl lc l) -> lpath l (f u) (f z) ws).
    - intros e inner l G. inversion G; subst. destruct e as (u, v). econstructor; [left; reflexivity|constructor].
    - intros e' inner l G. inversion G as [|? ? el' b' z' ? f own inner' ? E1 E2 E3 E4 E5 E6 E7 E8 E9]; subst. assert (el' = el) by congruence. subst el'. assert (b' = b /\ z' = z) as (-> & ->) by (split; congruence).
      rewrite <- E3, <- E4. apply IHword. intros c u v I. exact (graphs_member _ _ _ _ E7 _ _ (combine_map (fun e => (f (fst e), f (snd e))) el cs (u, v) c I)).
    - intros l' f _. constructor.
    - intros l' f HC. destruct (HC c u v) as (ic & lc & G & I); [assumption|]. apply lpath_app with (f v); [apply lpath_incl with lc; [exact I|]; exact (IHword _ _ _ G)|]. apply IHword0. exact HC.
  Qed.
  (** a path that has entered a subtree's graph leaves it at its end *)
  Lemma leaves l lc ic target ec c : graph_of c ec ic lc -> (forall y, In y l -> In (fst (fst y)) ic -> In y lc) -> ~ In target ic ->
    forall n ws, lpath l n target ws -> In n ic -> exists w1 w2, ws = w1 ++ w2 /\ lpath lc n (snd ec) w1 /\ lpath l (snd ec) target w2.
  Proof.
    intros G ALL NT n ws H. induction H as [u|u v w s ws I H IH]; intros J; [contradiction|]. pose proof (ALL _ I J) as IL. destruct (graph_nodes _ _ _ _ G u v s IL) as (_ & [ ->|V]).
    - exists [s], ws. split; [reflexivity|]. split; [econstructor; [exact IL|constructor]|exact H].
    - destruct (IH NT V) as (w1 & w2 & -> & P1 & P2). exists (s :: w1), w2. split; [reflexivity|]. split; [econstructor; [exact IL|exact P1]|exact P2].
  Qed.
  (** every path from end to end is a sequence of the tree *)
  Lemma path_word t : fits edges_of t -> forall e inner l ws, graph_of t e inner l -> fst e <> snd e -> lpath l (fst e) (snd e) ws -> word edges_of t ws.
  Proof.
    induction t as [s|s cs IH] using tree_ind'; intros FT e inner l ws G NE P.
    - inversion G; subst. inversion P as [u E1 E2|u v w s' ws' I P' E1 E2]; subst; [exfalso; apply NE; assumption|]. destruct I as [I|[]]. assert (ES : s' = s) by congruence. assert (EV : v = snd e) by exact (eq_sym (f_equal (fun x => snd (fst x)) I)). subst s' v.
      inversion P' as [u E1' E2'|u v w s' ws'' I' P'' E1' E2']; subst; [constructor|]. exfalso. destruct I' as [I'|[]]. apply NE. exact (f_equal (fun x => fst (fst x)) I').
    - inversion G as [|? ? el b z ? f own inner' ? E1 E2 E3 E4 E5 E6 E7 E8 E9]; subst.
      destruct (begin_end_spec el b z E2) as (IB & IZ & NB & NZ). apply WTopo with el b z; try assumption.
      assert (NODE : forall n, In n (map fst el ++ map snd el) -> ~ In (f n) inner').
      { intros n I J. destruct (Nat.eq_dec n b) as [->|B]; [destruct (E8 (f b)) as (Q & _); [apply in_or_app; right; exact J|]; apply Q; exact E3|]. destruct (Nat.eq_dec n z) as [->|Z]; [destruct (E8 (f z)) as (_ & Q); [apply in_or_app; right; exact J|]; apply Q; exact E4|]. exact (E9 (f n) (E5 n I B Z) J). }
      rewrite <- E3, <- E4 in P. assert (START : In b (map fst el ++ map snd el)) by (apply in_or_app; left; exact IB). assert (END : In z (map fst el ++ map snd el)) by (apply in_or_app; right; exact IZ).
      assert (GO : forall k n ws, length ws <= k -> In n (map fst el ++ map snd el) -> lpath l (f n) (f z) ws -> walk edges_of (combine el cs) n z ws); [|exact (GO (length ws) b ws (le_n _) START P)].
      clear P ws START. induction k as [|k IHk]; intros n ws L N P.
      + destruct ws; [|cbn in L; lia]. inversion P as [u Q1 Q2|]; subst. assert (n = z) by (apply E6; congruence). subst n. constructor.
      + inversion P as [u Q1 Q2|u v w s' ws' I P' Q1 Q2]; subst; [assert (n = z) by (apply E6; congruence); subst n; constructor|].
        destruct (graphs_split _ _ _ _ E7) with (x := ((f n, v), s')) as (c & ec & ic & lc & A1 & A2 & A3 & A4 & A5); [|exact I|].
        { intros e' I' J. apply in_map_iff in I'. destruct I' as ((u0, v0) & <- & I'). cbn [fst] in J. apply (NODE u0); [apply in_or_app; left; exact (in_map fst _ _ I')|exact J]. }
        destruct (combine_map_inv _ el cs ec c A1) as ((u0, v0) & -> & A0). cbn [fst snd] in *.
        assert (N0 : In u0 (map fst el ++ map snd el) /\ In v0 (map fst el ++ map snd el)). { pose proof (in_combine_l _ _ _ _ A0) as I0. split; apply in_or_app; [left; exact (in_map fst _ _ I0)|right; exact (in_map snd _ _ I0)]. }
        destruct N0 as (NU & NV). destruct (graph_nodes _ _ _ _ A2 _ _ _ A4) as ([F|F] & V); [|exfalso; exact (NODE n N (A3 _ F))]. cbn [fst snd] in F, V. apply E6 in F; [|exact N|exact NU]. subst u0.
        destruct FT as ((el' & b' & z' & FE & (_ & GE & _) & _) & AF). assert (el' = el) by congruence. subst el'.
        assert (IHc : forall e inner l ws, graph_of c e inner l -> fst e <> snd e -> lpath l (fst e) (snd e) ws -> word edges_of c ws).
        { pose proof (in_combine_r _ _ _ _ A0) as IC. rewrite Forall_forall in IH. apply IH; [exact IC|]. clear -AF IC. induction cs as [|c0 cs IHcs]; [destruct IC|]. destruct AF as (F1 & F2). destruct IC as [ ->|IC]; [exact F1|exact (IHcs F2 IC)]. }
        assert (UV : f n <> f v0). { intros Q. apply E6 in Q; [|exact N|exact NV]. destruct (GE n v0 (in_combine_l _ _ _ _ A0)) as (_ & _ & X). contradiction. }
        destruct V as [ ->|V].
        * change (s' :: ws') with ([s'] ++ ws'). apply KCons with v0 c; [exact A0| |]. { apply (IHc _ _ _ _ A2 UV). cbn [fst snd]. econstructor; [exact A4|constructor]. } { apply IHk; [cbn in L; lia|exact NV|exact P']. }
        * destruct (leaves l lc ic (f z) _ c A2 A5 (fun J => NODE z END (A3 _ J)) v ws' P' V) as (w1 & w2 & -> & P1 & P2). cbn [snd] in P1, P2.
          change (s' :: w1 ++ w2) with ((s' :: w1) ++ w2). apply KCons with v0 c; [exact A0| |]. { apply (IHc _ _ _ _ A2 UV). cbn [fst snd]. econstructor; [exact A4|exact P1]. } { apply IHk; [cbn in L; rewrite app_length in L; lia|exact NV|exact P2]. }
  Qed.
End Paths.
Lemma built_paths edges_of zero s cs : fits edges_of (Topo s cs) -> exists el b z G off, edges_of s = Some el /\ begin_end el = Ok (b, z) /\
  built edges_of zero (terminals (Topo s cs)) = Ok (G, [], off) /\ NoDup (map fst G) /\
  forall ws, path G b z ws <-> word edges_of (Topo s cs) ws /\ Forall (fun o => zero o = false) ws.
Proof.
  intros FT. destruct (built_tree edges_of zero s cs FT) as (el & b & z & G & off & inner & l & E & BE & BU & GR & P & N). exists el, b, z, G, off. split; [exact E|]. split; [exact BE|]. split; [exact BU|]. split; [exact N|].
  assert (BZ : b <> z). { destruct (begin_end_spec el b z BE) as (IB & IZ & NB & NZ). intros ->. contradiction. }
  intros ws. split.
  - intros H. apply (path_perm _ _ _ _ _ P) in H. apply path_kept in H. destruct H as (H & F). split; [|exact F]. exact (path_word edges_of _ FT (b, z) inner l ws GR BZ H).
  - intros (H & F). apply (path_perm _ _ _ _ _ (Permutation_sym P)). apply path_kept. split; [|exact F]. exact (word_path edges_of _ _ H (b, z) inner l GR).
Qed.
Lemma built_operations edges_of zero s cs : fits edges_of (Topo s cs) -> exists G off,
  built edges_of zero (terminals (Topo s cs)) = Ok (G, [], off) /\ Permutation (map snd G) (map Some (filter (fun o => negb (zero o)) (operations (Topo s cs)))).
Proof.
  intros FT. destruct (built_tree edges_of zero s cs FT) as (el & b & z & G & off & inner & l & E & BE & BU & GR & P & N). exists G, off. split; [exact BU|].
  rewrite <- (graph_operations _ _ _ _ _ GR). apply Permutation_trans with (1 := Permutation_map snd P). unfold kept. rewrite map_map. cbn [snd].
  clear. induction l as [|x l IH]; [apply Permutation_refl|]. cbn [filter map]. destruct (negb (zero (snd x))); [cbn [map]; constructor|]; exact IH.
Qed.
