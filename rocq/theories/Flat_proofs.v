(** Flattened graphs compute the same. *)
From Verif Require Import Py Flat_model Flat_spec.
Local Open Scope Z_scope.
Local Open Scope list_scope.
Local Notation length := List.length.

Lemma fresh_above {A} (F : flat_graph A) n : In n (f_nodes F) -> n < fresh F.
Proof.
  unfold fresh. destruct (f_nodes F) as [|m l]; [intros []|]. intros I. assert (H : forall k l, k <= fold_right Z.max k l /\ forall j, In j l -> j <= fold_right Z.max k l).
  { intros k l'. induction l' as [|a l' (IH1 & IH2)]; cbn [fold_right]; [split; [lia|intros j []]|]. split; [lia|]. intros j [->|J]; [lia|]. specialize (IH2 j J). lia. }
  destruct (H m l) as (H1 & H2). destruct I as [->|I]; [lia|]. specialize (H2 n I). lia.
Qed.
Lemma fresh_new {A} (F : flat_graph A) : ~ In (fresh F) (f_nodes F).
Proof. intros I. apply fresh_above in I. lia. Qed.
Lemma ensure_nodes {A} n (F : flat_graph A) m : In m (f_nodes (ensure n F)) <-> In m (f_nodes F) \/ m = n.
Proof.
  unfold ensure. destruct (existsb (Z.eqb n) (f_nodes F)) eqn:E; cbn [f_nodes]; [|rewrite in_app_iff; cbn; intuition]. split; [tauto|]. intros [H| ->]; [exact H|]. apply existsb_exists in E. destruct E as (k & K & E). apply Z.eqb_eq in E. subst k. exact K.
Qed.
Lemma ensure_edges {A} n (F : flat_graph A) : f_edges (ensure n F) = f_edges F.
Proof. unfold ensure. destruct (existsb (Z.eqb n) (f_nodes F)); reflexivity. Qed.
Lemma set_op_new {A} u v (a : A) l : ~ In (u, v) (map fst l) -> set_op u v a l = l ++ [(u, v, a)].
Proof.
  induction l as [|((u', v'), a') l IH]; intros N; [reflexivity|]. cbn [set_op app]. destruct (Z.eqb_spec u u') as [->|NE]; cbn [andb].
  - destruct (Z.eqb_spec v v') as [->|NE]; [exfalso; apply N; left; reflexivity|]. rewrite IH; [reflexivity|]. intros I. apply N. right. exact I.
  - rewrite IH; [reflexivity|]. intros I. apply N. right. exact I.
Qed.
Lemma hop_ind' {A} (P : hop A -> Prop) : (forall a, P (Plain a)) -> (forall es, Forall (fun e => P (snd e)) es -> P (Sub es)) -> forall o, P o.
Proof.
  intros H1 H2. fix IH 1. intros [a|es]; [apply H1|]. apply H2. induction es as [|((u, v), o) es IHes]; constructor; [apply IH|exact IHes].
Qed.

Section Same.
  Context {A X : Type}.
  Variables (sem : A -> X -> X) (plus : X -> X -> X) (zero : X).
  Hypothesis ADD : addition plus zero.
  Notation total := (sum_of plus zero).
  Notation computes := (computes sem total).

  Lemma total_app l m : total (l ++ m) = plus (total l) (total m).
  Proof.
    destruct ADD as (A1 & A2 & A3). unfold sum_of. induction l as [|a l IH]; cbn [app fold_right]; [rewrite A2, A3; reflexivity|]. rewrite IH. apply A1.
  Qed.
  Lemma total_one y : total [y] = y. Proof. apply ADD. Qed.
  Lemma zero_plus y : plus zero y = y. Proof. destruct ADD as (_ & A2 & A3). rewrite A2. apply A3. Qed.

  (** what comes to a node of a flat graph *)
  Definition into (b : Z -> X) (n : Z) (E : list (Z * Z * A)) : list X := map (fun e => sem (snd e) (b (fst (fst e)))) (filter (fun e => Z.eqb (snd (fst e)) n) E).
  Lemma into_app b n E E' : into b n (E ++ E') = into b n E ++ into b n E'.
  Proof. unfold into. rewrite filter_app, map_app. reflexivity. Qed.
  Lemma into_none b n E : (forall e, In e E -> snd (fst e) <> n) -> into b n E = [].
  Proof.
    intros H. unfold into. replace (filter (fun e => Z.eqb (snd (fst e)) n) E) with (@nil (Z * Z * A)); [reflexivity|]. symmetry. induction E as [|e E IH]; [reflexivity|]. cbn [filter]. destruct (Z.eqb_spec (snd (fst e)) n) as [EQ|_]; [exfalso; exact (H e (or_introl eq_refl) EQ)|]. apply IH. intros d D. apply H. right. exact D.
  Qed.

  (** what is put in the place of one operation *)
  Record chunk : Type := mkChunk { c_from : Z; c_to : Z; c_new : list Z; c_edges : list (Z * Z * A) }.
  Definition chunk_ok (o : hop A) (c : chunk) : Prop :=
    (forall e, In e (c_edges c) -> (fst (fst e) = c_from c \/ In (fst (fst e)) (c_new c)) /\ (snd (fst e) = c_to c \/ In (snd (fst e)) (c_new c))) /\
    (forall b, (forall n, In n (c_new c) -> b n = total (into b n (c_edges c))) -> computes o (b (c_from c)) (total (into b (c_to c) (c_edges c)))) /\
    (forall n, n = c_from c \/ In n (c_new c) -> exists e, In e (c_edges c) /\ fst (fst e) = n) /\
    (forall n, n = c_to c \/ In n (c_new c) -> exists e, In e (c_edges c) /\ snd (fst e) = n) /\
    (forall x y, computes o x y -> exists b, b (c_from c) = x /\ (forall n, In n (c_new c) -> b n = total (into b n (c_edges c))) /\ total (into b (c_to c) (c_edges c)) = y) /\
    leaves o (map snd (c_edges c)).
  Definition closed (F : flat_graph A) : Prop := forall e, In e (f_edges F) -> In (fst (fst e)) (f_nodes F) /\ In (snd (fst e)) (f_nodes F).
  Definition placed (o : hop A) : Prop := forall u v F, In u (f_nodes F) -> In v (f_nodes F) -> u <> v -> ~ In (u, v) (map fst (f_edges F)) -> closed F ->
    exists c, c_from c = u /\ c_to c = v /\ chunk_ok o c /\ f_edges (place o u v F) = f_edges F ++ c_edges c /\
      (forall n, In n (f_nodes (place o u v F)) <-> In n (f_nodes F) \/ In n (c_new c)) /\ (forall n, In n (c_new c) -> ~ In n (f_nodes F)).
  Lemma place_plain a : placed (Plain a).
  Proof.
    intros u v F U V N NE CL. exists (mkChunk u v [] [(u, v, a)]). cbn [c_from c_to c_new c_edges place f_edges f_nodes]. split; [reflexivity|]. split; [reflexivity|]. split; [|split; [apply set_op_new; exact NE|split; [intros n; cbn; tauto|intros n []]]].
    split; [|split; [|split; [|split; [|split]]]]; cbn [c_from c_to c_new c_edges].
    - intros e [<-|[]]. cbn. auto.
    - intros b _. unfold into. cbn [filter snd fst]. rewrite Z.eqb_refl. cbn [map snd fst]. rewrite total_one. constructor.
    - intros n [->|[]]. eexists. split; [left; reflexivity|reflexivity].
    - intros n [->|[]]. eexists. split; [left; reflexivity|reflexivity].
    - intros x y C. inversion C; subst. exists (fun _ => x). split; [reflexivity|]. split; [intros n []|]. unfold into. cbn [filter snd fst]. rewrite Z.eqb_refl. cbn [map snd fst]. apply total_one.
    - constructor.
  Qed.
  Lemma into_same b b' n E : (forall e, In e E -> b (fst (fst e)) = b' (fst (fst e))) -> into b n E = into b' n E.
  Proof.
    intros H. unfold into. induction E as [|e E IH]; [reflexivity|]. cbn [filter]. assert (IH' := IH (fun d D => H d (or_intror D))). destruct (Z.eqb (snd (fst e)) n); [|exact IH']. cbn [map]. rewrite IH', (H e (or_introl eq_refl)). reflexivity.
  Qed.

  Section Edges.
    Variables (es : list (Z * Z * hop A)) (s t : Z) (start stop : option Z) (F0 : flat_graph A).
    Hypothesis ND : NoDup (map fst es).
    Hypothesis SO : source es s. Hypothesis SI : sink es t.
    Hypothesis LO : Forall (fun e => fst (fst e) <> snd (fst e) /\ placed (snd e)) es.
    Hypothesis CL : closed F0.
    Hypothesis ENDS : match start, stop with
      | Some a, Some b => a <> b /\ In a (f_nodes F0) /\ In b (f_nodes F0) /\ ~ In (a, b) (map fst (f_edges F0))
      | None, None => True | _, _ => False end.

    Definition given (w : Z) : option Z := if Z.eqb w s then start else if Z.eqb w t then stop else None.
    Definition touched (done : list (Z * Z * hop A)) (w : Z) : Prop := touches done w.
    Definition names_ok (names : list (Z * Z)) : Prop :=
      (forall w n, named w names = Some n -> touches es w /\ match given w with Some k => n = k | None => ~ In n (f_nodes F0) end) /\
      (forall w w' n, named w names = Some n -> named w' names = Some n -> w = w').
    Definition inv (names : list (Z * Z)) (F : flat_graph A) (done : list (Z * Z * hop A)) (cs : list chunk) : Prop :=
      names_ok names /\
      Forall2 (fun e c => named (fst (fst e)) names = Some (c_from c) /\ named (snd (fst e)) names = Some (c_to c) /\ chunk_ok (snd e) c) done cs /\
      f_edges F = f_edges F0 ++ List.concat (map c_edges cs) /\
      (forall n, In n (f_nodes F) <-> In n (f_nodes F0) \/ (exists w, named w names = Some n) \/ exists c, In c cs /\ In n (c_new c)) /\
      (forall c n, In c cs -> In n (c_new c) -> ~ In n (f_nodes F0) /\ forall w, named w names <> Some n) /\
      NoDup (List.concat (map (fun c => nodup Z.eq_dec (c_new c)) cs)).
    Lemma given_different w w' : w <> w' -> touches es w -> touches es w' -> forall n, given w = Some n -> given w' = Some n -> False.
    Proof.
      intros NE _ _ n. unfold given. destruct (Z.eqb_spec w s) as [->|N1]; destruct (Z.eqb_spec w' s) as [->|N2]; try congruence.
      - destruct (Z.eqb_spec w' t) as [->|]; [|discriminate]. intros E1 E2. rewrite E1, E2 in ENDS. destruct ENDS as (X1 & _). congruence.
      - destruct (Z.eqb_spec w t) as [->|]; [|discriminate]. intros E1 E2. rewrite E1, E2 in ENDS. destruct ENDS as (X1 & _). congruence.
      - destruct (Z.eqb_spec w t) as [->|]; [|discriminate]. destruct (Z.eqb_spec w' t) as [->|]; [|discriminate]. congruence.
    Qed.
    Lemma given_in w n : given w = Some n -> In n (f_nodes F0).
    Proof.
      unfold given. destruct (Z.eqb w s); [intros E; rewrite E in ENDS; destruct stop; [apply ENDS|contradiction]|]. destruct (Z.eqb w t); [|discriminate]. intros E. rewrite E in ENDS. destruct start; [apply ENDS|contradiction].
    Qed.
    (** one end of an edge *)
    Lemma name_ok w (at_end : bool) (g : option Z) names F done cs : inv names F done cs -> touches es w -> (match g with Some k => if at_end then Some k else None | None => None end) = given w ->
      exists n names1 F1, name w at_end g names F = (n, names1, F1) /\ named w names1 = Some n /\ inv names1 F1 done cs /\ (forall w' n', named w' names = Some n' -> named w' names1 = Some n') /\ In n (f_nodes F1).
    Proof.
      intros I T G. unfold name. destruct (named w names) as [n|] eqn:E.
      - exists n, names, F. do 2 (split; [reflexivity || exact E|]). split; [exact I|]. split; [auto|]. destruct I as (_ & _ & _ & I4 & _). apply I4. right. left. exists w. exact E.
      - set (n := match g with Some k => if at_end then k else fresh F | None => fresh F end).
        assert (NG : match given w with Some k => n = k | None => n = fresh F end) by (rewrite <- G; unfold n; destruct g; [destruct at_end|]; reflexivity).
        exists n, ((w, n) :: names), (ensure n F). split; [reflexivity|]. split; [cbn [named]; rewrite Z.eqb_refl; reflexivity|].
        assert (KEEP : forall w' n', named w' names = Some n' -> named w' ((w, n) :: names) = Some n').
        { intros w' n' N'. cbn [named]. destruct (Z.eqb_spec w' w) as [->|]; [congruence|exact N']. }
        destruct I as ((I1 & I2) & I3 & I4 & I5 & I6 & I7).
        assert (NEW : forall w' , named w' names = Some n -> False).
        { intros w' N'. destruct (I1 w' n N') as (T' & G'). destruct (given w) as [k|] eqn:GW.
          - subst k. destruct (given w') as [k'|] eqn:GW'; [|apply G'; exact (given_in w n GW)]. subst k'. apply (given_different w w' ltac:(intros ->; congruence) T T' n GW GW').
          - apply (fresh_new F). rewrite <- NG. apply I5. right. left. exists w'. exact N'. }
        split; [|split; [exact KEEP|apply ensure_nodes; right; reflexivity]]. split; [split|split; [|split; [|split; [|split]]]].
        + intros w' n' N'. cbn [named] in N'. destruct (Z.eqb_spec w' w) as [->|]; [|exact (I1 w' n' N')]. injection N' as <-. split; [exact T|]. destruct (given w) as [k|]; [exact NG|]. rewrite NG. intros J. apply (fresh_new F), I5. left. exact J.
        + intros w1 w2 n' N1 N2. cbn [named] in N1, N2. destruct (Z.eqb_spec w1 w) as [E1|_]; destruct (Z.eqb_spec w2 w) as [E2|_]; [congruence| | |exact (I2 w1 w2 n' N1 N2)].
          * injection N1 as <-. destruct (NEW w2 N2).
          * injection N2 as <-. destruct (NEW w1 N1).
        + clear -I3 KEEP. induction I3 as [|e c l l' (H1 & H2 & H3) _ IH]; constructor; [|exact IH]. split; [apply KEEP, H1|]. split; [apply KEEP, H2|exact H3].
        + rewrite ensure_edges. exact I4.
        + intros m. rewrite ensure_nodes, I5. split.
          * intros [[H|[(w' & H)|H]]| ->]; [left; exact H|right; left; exists w'; apply KEEP, H|right; right; exact H|right; left; exists w; cbn [named]; rewrite Z.eqb_refl; reflexivity].
          * intros [H|[(w' & H)|H]]; [left; left; exact H| |left; right; right; exact H]. cbn [named] in H. destruct (Z.eqb_spec w' w) as [EW|_]; [injection H as <-; right; reflexivity|left; right; left; exists w'; exact H].
        + intros c m C M. destruct (I6 c m C M) as (J1 & J2). split; [exact J1|]. intros w'. cbn [named]. destruct (Z.eqb_spec w' w) as [EW|_]; [|apply J2]. intros Q. injection Q as <-.
          destruct (given w) as [k|] eqn:GW; [subst k; exact (J1 (given_in w n GW))|]. apply (fresh_new F). rewrite <- NG. apply I5. right. right. exists c. auto.
        + exact I7.
    Qed.
    Lemma inv_closed names F done cs : inv names F done cs -> closed F.
    Proof.
      intros (_ & I3 & I4 & I5 & _) e E. rewrite I4 in E. apply in_app_or in E. destruct E as [E|E]; [destruct (CL e E); split; apply I5; left; assumption|].
      apply in_concat in E. destruct E as (l & L & E). apply in_map_iff in L. destruct L as (c & <- & C).
      assert (K : exists d, named (fst (fst d)) names = Some (c_from c) /\ named (snd (fst d)) names = Some (c_to c) /\ chunk_ok (snd d) c).
      { clear -I3 C. induction I3 as [|d c' l l' H _ IH]; [destruct C|]. destruct C as [->|C]; [exists d; exact H|exact (IH C)]. }
      destruct K as (d & K1 & K2 & K3 & _). destruct (K3 e E) as (Q1 & Q2). split; apply I5.
      - destruct Q1 as [->|Q1]; [right; left; exists (fst (fst d)); exact K1|right; right; exists c; auto].
      - destruct Q2 as [->|Q2]; [right; left; exists (snd (fst d)); exact K2|right; right; exists c; auto].
    Qed.
    Lemma edges_ok : forall l done names F cs, es = done ++ l -> inv names F done cs ->
      exists names' cs', inv names' (each_edge place es start stop l names F) es cs'.
    Proof.
      induction l as [|((u, v), o) l IH]; intros done names F cs E I.
      - rewrite app_nil_r in E. subst done. exists names, cs. exact I.
      - assert (IE : In (u, v, o) es) by (rewrite E; apply in_or_app; right; left; reflexivity).
        assert (TU : touches es u) by (exists (u, v, o); cbn; auto). assert (TV : touches es v) by (exists (u, v, o); cbn; auto).
        rewrite Forall_forall in LO. destruct (LO _ IE) as (UV & PO). cbn [fst snd] in UV, PO.
        assert (IU : In u (map (fun e : Z * Z * hop A => fst (fst e)) es)) by (apply in_map_iff; exists (u, v, o); auto).
        assert (IV : In v (map (fun e : Z * Z * hop A => snd (fst e)) es)) by (apply in_map_iff; exists (u, v, o); auto).
        assert (UT : u <> t) by (intros ->; apply (SI t TU) in IU; [exact IU|reflexivity]).
        assert (VS : v <> s) by (intros ->; apply (SO s TV) in IV; [exact IV|reflexivity]).
        cbn [each_edge].
        destruct (name_ok u (negb (existsb (fun e : Z * Z * hop A => Z.eqb (snd (fst e)) u) es)) start names F done cs I TU) as (nu & names1 & F1 & -> & N1 & I1 & K1 & U1).
        { unfold given. destruct (Z.eqb_spec u s) as [->|NS].
          - replace (existsb _ es) with false; [destruct start; reflexivity|]. symmetry. apply not_true_is_false. intros B. apply existsb_exists in B. destruct B as (d & D & B). apply Z.eqb_eq in B. apply (proj2 (SO s TU) eq_refl). apply in_map_iff. exists d. auto.
          - destruct (Z.eqb_spec u t); [contradiction|]. replace (existsb _ es) with true; [destruct start; reflexivity|]. symmetry. apply existsb_exists. destruct (in_dec Z.eq_dec u (map (fun e : Z * Z * hop A => snd (fst e)) es)) as [J|J]; [|apply (SO u TU) in J; contradiction].
            apply in_map_iff in J. destruct J as (d & J & D). exists d. split; [exact D|apply Z.eqb_eq, J]. }
        destruct (name_ok v (negb (existsb (fun e : Z * Z * hop A => Z.eqb (fst (fst e)) v) es)) stop names1 F1 done cs I1 TV) as (nv & names2 & F2 & -> & N2 & I2 & K2 & V2).
        { unfold given. destruct (Z.eqb_spec v s); [contradiction|]. destruct (Z.eqb_spec v t) as [->|NT].
          - replace (existsb _ es) with false; [destruct stop; reflexivity|]. symmetry. apply not_true_is_false. intros B. apply existsb_exists in B. destruct B as (d & D & B). apply Z.eqb_eq in B. apply (proj2 (SI t TV) eq_refl). apply in_map_iff. exists d. auto.
          - replace (existsb _ es) with true; [destruct stop; reflexivity|]. symmetry. apply existsb_exists. destruct (in_dec Z.eq_dec v (map (fun e : Z * Z * hop A => fst (fst e)) es)) as [J|J]; [|apply (SI v TV) in J; contradiction].
            apply in_map_iff in J. destruct J as (d & J & D). exists d. split; [exact D|apply Z.eqb_eq, J]. }
        pose proof (inv_closed _ _ _ _ I2) as CL2. apply K2 in N1. destruct I2 as ((M1 & M2) & M3 & M4 & M5 & M6 & M7).
        assert (UV2 : nu <> nv) by (intros EQ; rewrite EQ in N1; exact (UV (M2 u v nv N1 N2))).
        assert (U2 : In nu (f_nodes F2)) by (apply M5; right; left; exists u; exact N1).
        destruct (PO nu nv F2 U2 V2 UV2) as (c & C1 & C2 & C3 & C4 & C5 & C6); [|exact CL2|].
        { rewrite M4, map_app. intros J. apply in_app_or in J. destruct J as [J|J].
          - apply in_map_iff in J. destruct J as (d & D1 & D2). destruct (CL d D2) as (D3 & D4). rewrite D1 in D3, D4. cbn [fst snd] in D3, D4.
            destruct (M1 u nu N1) as (_ & G1). destruct (M1 v nv N2) as (_ & G2). unfold given in G1, G2. destruct (Z.eqb_spec u s) as [->|]; [|destruct (Z.eqb_spec u t); [contradiction|exact (G1 D3)]].
            destruct (Z.eqb_spec v s); [contradiction|]. destruct (Z.eqb_spec v t) as [->|]; [|exact (G2 D4)]. destruct start as [a|]; [|exact (G1 D3)]. destruct stop as [b|]; [|contradiction]. subst a b.
            destruct ENDS as (_ & _ & _ & NP). apply NP. rewrite <- D1. apply in_map, D2.
          - apply in_map_iff in J. destruct J as (d & D1 & D2). apply in_concat in D2. destruct D2 as (q & Q & D2). apply in_map_iff in Q. destruct Q as (c & <- & C).
            assert (K : exists d', In d' done /\ named (fst (fst d')) names2 = Some (c_from c) /\ named (snd (fst d')) names2 = Some (c_to c) /\ chunk_ok (snd d') c).
            { clear -M3 C. induction M3 as [|d' c' l l' H _ IHM]; [destruct C|]. destruct C as [->|C]; [exists d'; split; [left; reflexivity|exact H]|]. destruct (IHM C) as (d2 & A1 & A2). exists d2. split; [right; exact A1|exact A2]. }
            destruct K as (d' & DD & Q1 & Q2 & Q3 & _). destruct (Q3 d D2) as (R1 & R2). rewrite D1 in R1, R2. cbn [fst snd] in R1, R2.
            destruct R1 as [R1|R1]; [|exact (proj2 (M6 c nu C R1) u N1)]. destruct R2 as [R2|R2]; [|exact (proj2 (M6 c nv C R2) v N2)].
            rewrite <- R1 in Q1. rewrite <- R2 in Q2. assert (X1 := M2 _ _ _ Q1 N1). assert (X2 := M2 _ _ _ Q2 N2).
            rewrite E, map_app in ND. cbn [map fst] in ND. apply NoDup_remove_2 in ND. apply ND, in_or_app. left. apply in_map_iff. exists d'. split; [destruct d' as ((u', v'), o'); cbn [fst snd] in *; congruence|exact DD]. }
        apply (IH (done ++ [(u, v, o)]) names2 (place o nu nv F2) (cs ++ [c])); [rewrite <- app_assoc; exact E|]. split; [split; assumption|]. split; [|split; [|split; [|split]]].
        + apply Forall2_app; [exact M3|]. constructor; [|constructor]. cbn [fst snd]. rewrite C1, C2. auto.
        + rewrite C4, M4, map_app, concat_app. cbn [map List.concat]. rewrite app_nil_r, app_assoc. reflexivity.
        + intros n. rewrite C5, M5. split.
          * intros [[H|[H|(c' & H1 & H2)]]|H]; [auto|auto|right; right; exists c'; split; [apply in_or_app; left; exact H1|exact H2]|right; right; exists c; split; [apply in_or_app; right; left; reflexivity|exact H]].
          * intros [H|[H|(c' & H1 & H2)]]; [auto|auto|]. apply in_app_or in H1. destruct H1 as [H1|[<-|[]]]; [left; right; right; exists c'; auto|right; exact H2].
        + intros c' n H1 H2. apply in_app_or in H1. destruct H1 as [H1|[<-|[]]]; [exact (M6 c' n H1 H2)|]. specialize (C6 n H2). split; [intros J; apply C6, M5; left; exact J|]. intros w J. apply C6, M5. right. left. exists w. exact J.
        + rewrite map_app, concat_app. cbn [map List.concat]. rewrite app_nil_r. assert (DJ : forall n, In n (List.concat (map (fun c => nodup Z.eq_dec (c_new c)) cs)) -> ~ In n (nodup Z.eq_dec (c_new c))).
          { intros n J1 J2. apply nodup_In in J2. apply (C6 n J2), M5. right. right. apply in_concat in J1. destruct J1 as (q & Q & J1). apply in_map_iff in Q. destruct Q as (c' & <- & C'). apply nodup_In in J1. exists c'. auto. }
          clear -M7 DJ. induction M7 as [|a q N _ IHq]; cbn [app]; [apply NoDup_nodup|]. constructor; [|apply IHq; intros n J; apply DJ; right; exact J]. rewrite in_app_iff. intros [J|J]; [contradiction|]. exact (DJ a (or_introl eq_refl) J).
    Qed.
    Lemma inv_start : inv [] F0 [] [].
    Proof.
      split; [split; [discriminate|discriminate]|]. split; [constructor|]. split; [symmetry; apply app_nil_r|]. split; [|split; [intros c n []|constructor]].
      intros n. split; [auto|]. intros [H|[(w & H)|(c & [] & _)]]; [exact H|discriminate].
    Qed.

    (** what the chunks compute together *)
    Variables (names : list (Z * Z)) (F : flat_graph A) (cs : list chunk).
    Hypothesis INV : inv names F es cs.
    Definition nm (w : Z) : Z := match named w names with Some n => n | None => 0 end.
    Lemma nm_named w : touches es w -> named w names = Some (nm w).
    Proof.
      intros (e & I & H). destruct INV as (_ & M3 & _). assert (K : exists a b, named (fst (fst e)) names = Some a /\ named (snd (fst e)) names = Some b).
      { clear -M3 I. induction M3 as [|d c l l' (H1 & H2 & _) _ IH]; [destruct I|]. destruct I as [->|I]; [eauto|exact (IH I)]. }
      destruct K as (a & b & K1 & K2). unfold nm. destruct H as [<-|<-]; [rewrite K1|rewrite K2]; reflexivity.
    Qed.
    Lemma chunks_into b w : touches es w -> forall l q, Forall2 (fun e c => named (fst (fst e)) names = Some (c_from c) /\ named (snd (fst e)) names = Some (c_to c) /\ chunk_ok (snd e) c) l q -> incl q cs ->
      total (into b (nm w) (List.concat (map c_edges q))) = total (arriving w l (map (fun c => total (into b (c_to c) (c_edges c))) q)).
    Proof.
      intros T. induction 1 as [|e c l q (H1 & H2 & H3) _ IH]; intros IQ; [reflexivity|]. cbn [map List.concat]. rewrite into_app, total_app, IH by (intros x Q; apply IQ; right; exact Q).
      destruct INV as ((M1 & M2) & _ & _ & _ & M6 & _). unfold arriving. cbn [combine filter fst snd]. destruct (Z.eqb_spec (snd (fst e)) w) as [EQ|NE].
      - cbn [map snd]. rewrite EQ in H2. unfold nm. rewrite H2. reflexivity.
      - rewrite (into_none b (nm w) (c_edges c)); [apply zero_plus|]. intros d D EQ. destruct H3 as (H3 & _). destruct (H3 d D) as (_ & R). rewrite EQ in R. pose proof (nm_named w T) as NW. destruct R as [R|R].
        + rewrite <- R in H2. apply NE. exact (M2 _ _ _ H2 NW).
        + exact (proj2 (M6 c (nm w) (IQ c (or_introl eq_refl)) R) w NW).
    Qed.
    Lemma only_chunk b c n : In c cs -> In n (c_new c) -> into b n (List.concat (map c_edges cs)) = into b n (c_edges c).
    Proof.
      intros C N. destruct INV as ((M1 & M2) & M3 & _ & _ & M6 & M7). destruct (in_split c cs C) as (q1 & q2 & Q). rewrite Q, map_app, concat_app. cbn [map List.concat]. rewrite !into_app.
      assert (OTHER : forall q, (forall c', In c' q -> In c' cs /\ ~ In n (c_new c')) -> into b n (List.concat (map c_edges q)) = []).
      { intros q HQ. apply into_none. intros e E EQ. apply in_concat in E. destruct E as (l & L & E). apply in_map_iff in L. destruct L as (c' & <- & C'). destruct (HQ c' C') as (B1 & B2).
        assert (K : exists d : Z * Z * hop A, named (snd (fst d)) names = Some (c_to c') /\ chunk_ok (snd d) c').
        { clear -M3 B1. induction M3 as [|d c2 l l' (_ & H2 & H3) _ IH]; [destruct B1|]. destruct B1 as [->|B1]; [exists d; auto|exact (IH B1)]. }
        destruct K as (d & K1 & K2 & _). destruct (K2 e E) as (_ & R). rewrite EQ in R. destruct R as [R|R]; [|contradiction]. rewrite <- R in K1. exact (proj2 (M6 c n C N) _ K1). }
      rewrite Q, map_app, concat_app in M7. cbn [map List.concat] in M7.
      assert (SEP : forall (q1 q q2 : list Z), NoDup (q1 ++ q ++ q2) -> In n q -> ~ In n q1 /\ ~ In n q2).
      { clear. intros q1 q q2. induction q1 as [|a q1 IH]; cbn [app]; intros D I.
        - split; [intros []|]. induction q as [|a q IH]; [destruct I|]. cbn [app] in D. inversion D as [|? ? D1 D2]; subst. destruct I as [->|I]; [intros J; apply D1, in_or_app; right; exact J|exact (IH D2 I)].
        - inversion D as [|? ? D1 D2]; subst. destruct (IH D2 I) as (J1 & J2). split; [|exact J2]. intros [->|J]; [|contradiction]. apply D1, in_or_app. right. apply in_or_app. left. exact I. }
      destruct (SEP _ _ _ M7) as (S1 & S2); [apply nodup_In; exact N|].
      rewrite (OTHER q1), (OTHER q2); [apply app_nil_r| |].
      - intros c' C'. split; [rewrite Q; apply in_or_app; right; right; exact C'|]. intros J. apply S2. apply in_concat. exists (nodup Z.eq_dec (c_new c')). split; [apply in_map_iff; exists c'; auto|apply nodup_In; exact J].
      - intros c' C'. split; [rewrite Q; apply in_or_app; left; exact C'|]. intros J. apply S1. apply in_concat. exists (nodup Z.eq_dec (c_new c')). split; [apply in_map_iff; exists c'; auto|apply nodup_In; exact J].
    Qed.
    Notation all_edges := (List.concat (map c_edges cs)).
    Hypothesis TS : touches es s. Hypothesis TT : touches es t. Hypothesis ST : s <> t.
    (** the values of the chunks are those of the graph *)
    Lemma chunks_compute b : (forall c n, In c cs -> In n (c_new c) -> b n = total (into b n all_edges)) ->
      (forall w, touches es w -> w <> s -> w <> t -> b (nm w) = total (into b (nm w) all_edges)) ->
      computes (Sub es) (b (nm s)) (total (into b (nm t) all_edges)).
    Proof.
      intros H1 H2. destruct INV as ((M1 & M2) & M3 & _ & _ & M6 & M7).
      set (at_ := fun w => if Z.eqb w t then total (into b (nm t) all_edges) else b (nm w)). set (ys := map (fun c => total (into b (c_to c) (c_edges c))) cs).
      replace (b (nm s)) with (at_ s) by (unfold at_; destruct (Z.eqb_spec s t); [contradiction|reflexivity]). replace (total (into b (nm t) all_edges)) with (at_ t) by (unfold at_; rewrite Z.eqb_refl; reflexivity).
      apply (computes_sub sem total es s t at_ ys SO SI TS TT).
      - assert (H : forall l q, Forall2 (fun e c => named (fst (fst e)) names = Some (c_from c) /\ named (snd (fst e)) names = Some (c_to c) /\ chunk_ok (snd e) c) l q -> incl q cs -> incl l es ->
          Forall2 (fun e y => computes (snd e) (at_ (fst (fst e))) y) l (map (fun c => total (into b (c_to c) (c_edges c))) q)).
        { induction 1 as [|e c l q (K1 & K2 & K3) _ IH]; intros IQ IL; cbn [map]; constructor; [|apply IH; intros x Q; [apply IQ|apply IL]; right; exact Q].
          assert (NT : fst (fst e) <> t). { intros EQ. apply (proj2 (SI t TT) eq_refl). apply in_map_iff. exists e. split; [exact EQ|apply IL; left; reflexivity]. }
          unfold at_. destruct (Z.eqb_spec (fst (fst e)) t) as [|_]; [contradiction|]. unfold nm. rewrite K1. apply K3. intros n N. rewrite (H1 c n (IQ c (or_introl eq_refl)) N). rewrite (only_chunk b c n (IQ c (or_introl eq_refl)) N). reflexivity. }
        exact (H es cs M3 (incl_refl _) (incl_refl _)).
      - intros w T NS. unfold at_. destruct (Z.eqb_spec w t) as [->|NT]; [exact (chunks_into b t TT es cs M3 (incl_refl _))|]. rewrite (H2 w T NS NT). exact (chunks_into b w T es cs M3 (incl_refl _)).
    Qed.
    (** and the other way round *)
    Lemma chunks_from x y : computes (Sub es) x y -> exists b, b (nm s) = x /\ (forall c n, In c cs -> In n (c_new c) -> b n = total (into b n all_edges)) /\
      (forall w, touches es w -> w <> s -> w <> t -> b (nm w) = total (into b (nm w) all_edges)) /\ total (into b (nm t) all_edges) = y.
    Proof.
      intros C. inversion C as [|es' s' t' at_ ys SO' SI' TS' TT' FE EQ E1 E2 E3]. subst es'.
      assert (s' = s) by (apply (SO s' TS'); apply (SO' s' TS'); reflexivity). assert (t' = t) by (apply (SI t' TT'); apply (SI' t' TT'); reflexivity). subst s' t'. clear E2 E3 C.
      assert (BASE : forall W, (forall w, In w W -> touches es w) -> exists b0 : Z -> X, forall w, In w W -> b0 (nm w) = at_ w).
      { destruct INV as ((_ & M2) & _). induction W as [|w W IH]; intros HW; [exists at_; intros w []|]. destruct (IH (fun u U => HW u (or_intror U))) as (b & B). exists (fun n => if Z.eqb n (nm w) then at_ w else b n). intros u U.
        destruct (Z.eqb_spec (nm u) (nm w)) as [Q|Q]; [|destruct U as [<-|U]; [congruence|exact (B u U)]]. f_equal. apply (M2 w u (nm w)); [apply nm_named, HW; left; reflexivity|]. rewrite <- Q. apply nm_named, HW, U. }
      destruct (BASE (map (fun e : Z * Z * hop A => fst (fst e)) es ++ map (fun e : Z * Z * hop A => snd (fst e)) es)) as (b0 & B0).
      { intros w I. apply in_app_or in I. destruct I as [I|I]; apply in_map_iff in I; destruct I as (e & <- & I); exists e; auto. }
      assert (B1 : forall w, touches es w -> b0 (nm w) = at_ w). { intros w (e & I & H). apply B0, in_or_app. destruct H as [<-|<-]; [left|right]; apply in_map_iff; exists e; auto. }
      destruct INV as ((M1 & M2) & M3 & _ & _ & M6 & M7).
      assert (LOOP : forall l q, Forall2 (fun e c => named (fst (fst e)) names = Some (c_from c) /\ named (snd (fst e)) names = Some (c_to c) /\ chunk_ok (snd e) c) l q -> incl q cs -> incl l es ->
        NoDup (List.concat (map (fun c => nodup Z.eq_dec (c_new c)) q)) -> forall zs, Forall2 (fun e y => computes (snd e) (at_ (fst (fst e))) y) l zs ->
        exists b, (forall w, touches es w -> b (nm w) = at_ w) /\ (forall c n, In c q -> In n (c_new c) -> b n = total (into b n (c_edges c))) /\ map (fun c => total (into b (c_to c) (c_edges c))) q = zs).
      { induction 1 as [|e c l q (K1 & K2 & K3) FQ IH]; intros IQ IL DJ zs FZ.
        - inversion FZ. exists b0. split; [exact B1|]. split; [intros c n []|reflexivity].
        - inversion FZ as [|? z ? zs' Z1 Z2]; subst. cbn [map List.concat] in DJ.
          assert (DJ2 : NoDup (List.concat (map (fun c => nodup Z.eq_dec (c_new c)) q)) /\ forall n, In n (c_new c) -> ~ In n (List.concat (map (fun c => nodup Z.eq_dec (c_new c)) q))).
          { clear -DJ. assert (K : forall l m : list Z, NoDup (l ++ m) -> NoDup m /\ forall n, In n l -> ~ In n m).
            { clear. induction l as [|a l IH]; intros m D; [split; [exact D|intros n []]|]. cbn [app] in D. inversion D as [|? ? D1 D2]; subst. destruct (IH m D2) as (J1 & J2). split; [exact J1|]. intros n [->|N]; [intros J; apply D1, in_or_app; right; exact J|exact (J2 n N)]. }
            destruct (K _ _ DJ) as (J1 & J2). split; [exact J1|]. intros n N. apply J2, nodup_In, N. }
          destruct DJ2 as (DJ2 & DJ3).
          destruct (IH (fun d D => IQ d (or_intror D)) (fun d D => IL d (or_intror D)) DJ2 zs' Z2) as (b & R1 & R2 & R3).
          assert (TU : touches es (fst (fst e))) by (exists e; split; [apply IL; left; reflexivity|auto]).
          pose proof K3 as (K4 & _ & _ & _ & K5 & _). destruct (K5 _ _ Z1) as (bc & P1 & P2 & P3).
          assert (CF : c_from c = nm (fst (fst e))) by (unfold nm; rewrite K1; reflexivity).
          assert (NF : forall n, In n (c_new c) -> forall w, touches es w -> n <> nm w). { intros n N w T EN. apply (proj2 (M6 c n (IQ c (or_introl eq_refl)) N) w). rewrite EN. apply nm_named, T. }
          set (b' := fun n => if in_dec Z.eq_dec n (c_new c) then bc n else b n).
          assert (SAME : forall n, into b' n (c_edges c) = into bc n (c_edges c)).
          { intros n. apply into_same. intros d D. destruct (K4 d D) as ([Q|Q] & _); unfold b'; destruct (in_dec Z.eq_dec (fst (fst d)) (c_new c)) as [J|J]; try reflexivity; [|contradiction]. rewrite Q, P1, CF. apply R1, TU. }
          assert (OLD : forall c', In c' q -> forall n, into b' n (c_edges c') = into b n (c_edges c')).
          { intros c' C' n. apply into_same. intros d D. unfold b'. destruct (in_dec Z.eq_dec (fst (fst d)) (c_new c)) as [J|J]; [|reflexivity]. exfalso.
            assert (K : exists d' : Z * Z * hop A, touches es (fst (fst d')) /\ named (fst (fst d')) names = Some (c_from c') /\ chunk_ok (snd d') c').
            { clear -FQ C' IL. assert (IL' : incl l es) by (intros z Z; apply IL; right; exact Z). clear IL. induction FQ as [|d' c2 l l' (H1 & _ & H3) _ IHF]; [destruct C'|]. destruct C' as [->|C']; [exists d'; split; [exists d'; split; [apply IL'; left; reflexivity|auto]|auto]|]. apply IHF; [exact C'|]. intros z Z. apply IL'. right. exact Z. }
            destruct K as (d' & T & Q1 & Q2 & _). destruct (Q2 d D) as ([Q|Q] & _).
            - apply (NF _ J _ T). rewrite Q. unfold nm. rewrite Q1. reflexivity.
            - apply (DJ3 _ J). apply in_concat. exists (nodup Z.eq_dec (c_new c')). split; [apply in_map_iff; exists c'; auto|apply nodup_In; exact Q]. }
          exists b'. split; [|split].
          + intros w T. unfold b'. destruct (in_dec Z.eq_dec (nm w) (c_new c)) as [J|J]; [destruct (NF _ J w T eq_refl)|apply R1, T].
          + intros c' n [<-|C'] N.
            * rewrite SAME. unfold b'. destruct (in_dec Z.eq_dec n (c_new c)) as [J|J]; [apply P2, N|contradiction].
            * rewrite (OLD c' C'). unfold b'. destruct (in_dec Z.eq_dec n (c_new c)) as [J|J]; [|exact (R2 c' n C' N)]. exfalso. apply (DJ3 _ J). apply in_concat. exists (nodup Z.eq_dec (c_new c')). split; [apply in_map_iff; exists c'; auto|apply nodup_In; exact N].
          + cbn [map]. f_equal; [rewrite SAME; exact P3|]. rewrite <- R3. apply map_ext_in. intros c' C'. rewrite (OLD c' C'). reflexivity. }
      destruct (LOOP es cs M3 (incl_refl _) (incl_refl _) M7 ys FE) as (b & R1 & R2 & R3). exists b.
      assert (ARR : forall w, touches es w -> total (into b (nm w) all_edges) = total (arriving w es ys)) by (intros w T; rewrite <- R3; exact (chunks_into b w T es cs M3 (incl_refl _))).
      split; [apply R1, TS|]. split; [|split].
      - intros c n CI N. rewrite (only_chunk b c n CI N). exact (R2 c n CI N).
      - intros w T W1 W2. rewrite (ARR w T), (R1 w T). exact (EQ w T W1).
      - rewrite (ARR t TT). symmetry. apply EQ; [exact TT|congruence].
    Qed.
    Lemma edge_chunk e : In e es -> exists c, In c cs /\ c_from c = nm (fst (fst e)) /\ c_to c = nm (snd (fst e)) /\ chunk_ok (snd e) c.
    Proof.
      intros I. destruct INV as (_ & M3 & _). clear -M3 I. unfold nm. induction M3 as [|d c l l' (H1 & H2 & H3) _ IH]; [destruct I|].
      destruct I as [->|I]; [exists c; rewrite H1, H2; split; [left; reflexivity|auto]|]. destruct (IH I) as (c' & A1 & A2). exists c'. split; [right; exact A1|exact A2].
    Qed.
    Lemma chunk_edge c : In c cs -> exists e, In e es /\ c_from c = nm (fst (fst e)) /\ c_to c = nm (snd (fst e)) /\ chunk_ok (snd e) c.
    Proof.
      intros I. destruct INV as (_ & M3 & _). clear -M3 I. unfold nm. induction M3 as [|d c' l l' (H1 & H2 & H3) _ IH]; [destruct I|].
      destruct I as [->|I]; [exists d; rewrite H1, H2; split; [left; reflexivity|auto]|]. destruct (IH I) as (c2 & A1 & A2). exists c2. split; [right; exact A1|exact A2].
    Qed.
    Lemma out_of w : touches es w -> w <> t -> exists e, In e all_edges /\ fst (fst e) = nm w.
    Proof.
      intros T N. destruct (in_dec Z.eq_dec w (map (fun e : Z * Z * hop A => fst (fst e)) es)) as [J|J]; [|apply (SI w T) in J; contradiction]. apply in_map_iff in J. destruct J as (e & <- & I).
      destruct (edge_chunk e I) as (c & C1 & C2 & _ & _ & _ & C5 & _). destruct (C5 (c_from c) (or_introl eq_refl)) as (d & D1 & D2). exists d. split; [apply in_concat; exists (c_edges c); split; [apply in_map, C1|exact D1]|congruence].
    Qed.
    Lemma in_to w : touches es w -> w <> s -> exists e, In e all_edges /\ snd (fst e) = nm w.
    Proof.
      intros T N. destruct (in_dec Z.eq_dec w (map (fun e : Z * Z * hop A => snd (fst e)) es)) as [J|J]; [|apply (SO w T) in J; contradiction]. apply in_map_iff in J. destruct J as (e & <- & I).
      destruct (edge_chunk e I) as (c & C1 & _ & C3 & _ & _ & _ & C6 & _). destruct (C6 (c_to c) (or_introl eq_refl)) as (d & D1 & D2). exists d. split; [apply in_concat; exists (c_edges c); split; [apply in_map, C1|exact D1]|congruence].
    Qed.
    Lemma new_ends c n : In c cs -> In n (c_new c) -> (exists e, In e all_edges /\ fst (fst e) = n) /\ (exists e, In e all_edges /\ snd (fst e) = n).
    Proof.
      intros C N. destruct (chunk_edge c C) as (_ & _ & _ & _ & _ & _ & C5 & C6 & _). destruct (C5 n (or_intror N)) as (d & D1 & D2). destruct (C6 n (or_intror N)) as (d' & D1' & D2').
      split; [exists d|exists d']; (split; [apply in_concat; exists (c_edges c); split; [apply in_map, C|assumption]|assumption]).
    Qed.
    Lemma ends_of e : In e all_edges -> (exists w, touches es w /\ w <> t /\ fst (fst e) = nm w \/ exists c, In c cs /\ In (fst (fst e)) (c_new c)) /\ (exists w, touches es w /\ w <> s /\ snd (fst e) = nm w \/ exists c, In c cs /\ In (snd (fst e)) (c_new c)).
    Proof.
      intros E. apply in_concat in E. destruct E as (l & L & E). apply in_map_iff in L. destruct L as (c & <- & C). destruct (chunk_edge c C) as (d & D & D1 & D2 & D3 & _). destruct (D3 e E) as (R1 & R2).
      assert (T1 : touches es (fst (fst d))) by (exists d; auto). assert (T2 : touches es (snd (fst d))) by (exists d; auto).
      split.
      - destruct R1 as [R1|R1]; [exists (fst (fst d)); left; split; [exact T1|]; split; [|congruence]; intros EQ; rewrite EQ in T1; apply (proj2 (SI t T1) eq_refl); apply in_map_iff; exists d; auto|exists 0; right; exists c; auto].
      - destruct R2 as [R2|R2]; [exists (snd (fst d)); left; split; [exact T2|]; split; [|congruence]; intros EQ; rewrite EQ in T2; apply (proj2 (SO s T2) eq_refl); apply in_map_iff; exists d; auto|exists 0; right; exists c; auto].
    Qed.
  End Edges.

  Lemma chunk_leaves es names cs : Forall2 (fun e c => named (fst (fst e)) names = Some (c_from c) /\ named (snd (fst e)) names = Some (c_to c) /\ chunk_ok (snd e) c) es cs -> leaves (Sub es) (map snd (List.concat (map c_edges cs))).
  Proof.
    intros H. rewrite concat_map, map_map. constructor. induction H as [|e c l l' (_ & _ & _ & _ & _ & _ & _ & H) _ IH]; cbn [map]; constructor; assumption.
  Qed.
  Lemma ends_differ (es : list (Z * Z * hop A)) s t : source es s -> sink es t -> touches es s -> s <> t.
  Proof.
    intros SO SI (e & I & H) ->. assert (T : touches es t) by (exists e; auto). destruct H as [H|H].
    - apply (proj2 (SI t T) eq_refl). apply in_map_iff. exists e. auto.
    - apply (proj2 (SO t T) eq_refl). apply in_map_iff. exists e. auto.
  Qed.
  Lemma place_sub es : NoDup (map fst es) -> (exists s, source es s /\ touches es s) -> (exists t, sink es t /\ touches es t) ->
    Forall (fun e => fst (fst e) <> snd (fst e) /\ placed (snd e)) es -> placed (Sub es).
  Proof.
    intros ND (s & SO & TS) (t & SI & TT) LO u v F U V N NE CL. pose proof (ends_differ es s t SO SI TS) as ST.
    assert (EN : u <> v /\ In u (f_nodes F) /\ In v (f_nodes F) /\ ~ In (u, v) (map fst (f_edges F))) by auto.
    destruct (edges_ok es s t (Some u) (Some v) F ND SO SI LO CL EN es [] [] F [] eq_refl (inv_start es s t (Some u) (Some v) F)) as (names & cs & INV).
    change (each_edge place es (Some u) (Some v) es [] F) with (place (Sub es) u v F) in INV. pose proof INV as ((M1 & M2) & M3 & M4 & M5 & M6 & M7).
    assert (NS : nm names s = u) by (pose proof (nm_named es s t (Some u) (Some v) F names _ cs INV s TS) as Q; destruct (M1 s _ Q) as (_ & G); unfold given in G; rewrite Z.eqb_refl in G; exact G).
    assert (NT : nm names t = v) by (pose proof (nm_named es s t (Some u) (Some v) F names _ cs INV t TT) as Q; destruct (M1 t _ Q) as (_ & G); unfold given in G; destruct (Z.eqb_spec t s); [congruence|]; rewrite Z.eqb_refl in G; exact G).
    set (inner := filter (fun n => negb (Z.eqb n u) && negb (Z.eqb n v)) (map snd names)).
    assert (NIN : forall n, (exists w, named w names = Some n) -> In n (map snd names)).
    { intros n (w & W). clear -W. induction names as [|(w', n') l IH]; [discriminate|]. cbn [named map snd] in *. destruct (Z.eqb w w'); [injection W as ->; left; reflexivity|right; exact (IH W)]. }
    set (new := filter (fun n => if in_dec Z.eq_dec n (f_nodes F) then false else true) (f_nodes (place (Sub es) u v F))).
    assert (NEW : forall n, In n new <-> (exists w, touches es w /\ w <> s /\ w <> t /\ n = nm names w) \/ exists c, In c cs /\ In n (c_new c)).
    { intros n. unfold new. rewrite filter_In, M5. split.
      - intros (H & Q). destruct (in_dec Z.eq_dec n (f_nodes F)) as [|NF]; [discriminate|]. destruct H as [H|[(w & W)|H]]; [contradiction| |right; exact H]. left. exists w. destruct (M1 w n W) as (T & G). unfold given in G.
        destruct (Z.eqb_spec w s) as [->|N1]; [subst n; contradiction|]. destruct (Z.eqb_spec w t) as [->|N2]; [subst n; contradiction|]. split; [exact T|]. split; [exact N1|]. split; [exact N2|]. unfold nm. rewrite W. reflexivity.
      - intros [(w & T & N1 & N2 & ->)|(c & C & H)].
        + pose proof (nm_named es s t (Some u) (Some v) F names _ cs INV w T) as Q. split; [right; left; exists w; exact Q|]. destruct (M1 w _ Q) as (_ & G). unfold given in G. destruct (Z.eqb_spec w s); [contradiction|]. destruct (Z.eqb_spec w t); [contradiction|]. destruct (in_dec Z.eq_dec (nm names w) (f_nodes F)); [contradiction|reflexivity].
        + split; [right; right; exists c; auto|]. destruct (in_dec Z.eq_dec n (f_nodes F)) as [J|_]; [destruct (proj1 (M6 c n C H) J)|reflexivity]. }
    exists (mkChunk u v new (List.concat (map c_edges cs))). cbn [c_from c_to c_new c_edges]. split; [reflexivity|]. split; [reflexivity|]. split; [|split; [exact M4|split]].
    - split; [|split; [|split; [|split; [|split]]]]; cbn [c_from c_to c_new c_edges].
      + intros e E. destruct (ends_of es s t (Some u) (Some v) F SO SI names _ cs INV e E) as ((w & R1) & (w' & R2)). split.
        * destruct R1 as [(T & W1 & ->)|R1]; [|right; apply NEW; right; exact R1]. destruct (Z.eq_dec w s) as [->|]; [left; exact NS|right; apply NEW; left; exists w; auto].
        * destruct R2 as [(T & W1 & ->)|R2]; [|right; apply NEW; right; exact R2]. destruct (Z.eq_dec w' t) as [->|]; [left; exact NT|right; apply NEW; left; exists w'; auto].
      + intros b HB. rewrite <- NS, <- NT. apply (chunks_compute es s t (Some u) (Some v) F SO SI names _ cs INV TS TT ST).
        * intros c n C H. apply HB, NEW. right. exists c. auto.
        * intros w T W1 W2. apply HB, NEW. left. exists w. auto.
      + intros n [->|H]; [rewrite <- NS; exact (out_of es s t (Some u) (Some v) F SI names _ cs INV s TS ST)|]. apply NEW in H. destruct H as [(w & T & W1 & W2 & ->)|(c & C & H)]; [exact (out_of es s t (Some u) (Some v) F SI names _ cs INV w T W2)|exact (proj1 (new_ends es s t (Some u) (Some v) F names _ cs INV c n C H))].
      + intros n [->|H]; [rewrite <- NT; exact (in_to es s t (Some u) (Some v) F SO names _ cs INV t TT (not_eq_sym ST))|]. apply NEW in H. destruct H as [(w & T & W1 & W2 & ->)|(c & C & H)]; [exact (in_to es s t (Some u) (Some v) F SO names _ cs INV w T W1)|exact (proj2 (new_ends es s t (Some u) (Some v) F names _ cs INV c n C H))].
      + intros x y CO. destruct (chunks_from es s t (Some u) (Some v) F SO SI names _ cs INV TS TT ST x y CO) as (b & Q1 & Q2 & Q3 & Q4). exists b. rewrite NS in Q1. rewrite NT in Q4. split; [exact Q1|]. split; [|exact Q4]. intros n H. apply NEW in H. destruct H as [(w & T & W1 & W2 & ->)|(c & C & H)]; [exact (Q3 w T W1 W2)|exact (Q2 c n C H)].
      + exact (chunk_leaves es names cs M3).
    - intros n. rewrite NEW, M5. split.
      + intros [H|[(w & W)|H]]; [auto| |auto]. destruct (M1 w n W) as (T & G). destruct (Z.eq_dec w s) as [->|W1]; [left; rewrite (nm_named es s t (Some u) (Some v) F names _ cs INV s T) in W; congruence|].
        destruct (Z.eq_dec w t) as [->|W2]; [left; rewrite (nm_named es s t (Some u) (Some v) F names _ cs INV t T) in W; congruence|]. right. left. exists w. unfold nm. rewrite W. auto.
      + intros [H|[(w & T & W1 & W2 & ->)|H]]; [auto| |auto]. right. left. exists w. exact (nm_named es s t (Some u) (Some v) F names _ cs INV w T).
    - intros n H. unfold new in H. apply filter_In in H. destruct H as (_ & H). destruct (in_dec Z.eq_dec n (f_nodes F)) as [|NF]; [discriminate|exact NF].
  Qed.
  Lemma all_placed o : sound_op o -> placed o.
  Proof.
    induction o as [a|es IH] using hop_ind'; intros S; [apply place_plain|]. inversion S as [|? _ S2 S3 S4 S5]; subst. apply place_sub; [exact S2|exact S3|exact S4|].
    clear -IH S5. induction es as [|e es IHes]; [constructor|]. inversion IH; inversion S5 as [|? ? (Q1 & Q2) Q3]; subst. constructor; [auto|apply IHes; assumption].
  Qed.
  Lemma flatten_ok es : sound_op (Sub es) -> exists s t, leaves (Sub es) (map snd (f_edges (flatten_graph es))) /\ (forall n, In n (f_nodes (flatten_graph es)) -> ((~ exists e, In e (f_edges (flatten_graph es)) /\ snd (fst e) = n) <-> n = s) /\ ((~ exists e, In e (f_edges (flatten_graph es)) /\ fst (fst e) = n) <-> n = t)) /\
    In s (f_nodes (flatten_graph es)) /\ In t (f_nodes (flatten_graph es)) /\ closed (flatten_graph es) /\
    forall x y, computes (Sub es) x y <-> exists b, flat_values sem total (flatten_graph es) s b /\ b s = x /\ b t = y.
  Proof.
    intros SD. inversion SD as [|? _ ND (s & SO & TS) (t & SI & TT) LO]; subst. pose proof (ends_differ es s t SO SI TS) as ST.
    assert (LO' : Forall (fun e => fst (fst e) <> snd (fst e) /\ placed (snd e)) es) by (revert LO; apply Forall_impl; intros e (H1 & H2); split; [exact H1|apply all_placed, H2]).
    set (F0 := mkFlat [] [] : flat_graph A). assert (CL : closed F0) by (intros e []).
    destruct (edges_ok es s t None None F0 ND SO SI LO' CL Logic.I es [] [] F0 [] eq_refl (inv_start es s t None None F0)) as (names & cs & INV).
    change (each_edge place es None None es [] F0) with (flatten_graph es) in INV. pose proof INV as ((M1 & M2) & M3 & M4 & M5 & M6 & M7). cbn [F0 f_edges app] in M4.
    pose proof (nm_named es s t None None F0 names _ cs INV) as NM.
    exists (nm names s), (nm names t). rewrite M4. split; [exact (chunk_leaves es names cs M3)|]. split; [|split; [|split; [|split]]].
    - intros n H. apply M5 in H. destruct H as [[]|H]. split; split.
      + intros Q. destruct H as [(w & W)|(c & C & H)]; [|exfalso; apply Q, (new_ends es s t None None F0 names _ cs INV c n C H)]. destruct (M1 w n W) as (T & _). rewrite (NM w T) in W. injection W as <-.
        destruct (Z.eq_dec w s) as [->|W1]; [reflexivity|]. exfalso. apply Q, (in_to es s t None None F0 SO names _ cs INV w T W1).
      + intros -> (e & E & EQ). destruct (ends_of es s t None None F0 SO SI names _ cs INV e E) as (_ & (w & R)). rewrite EQ in R. destruct R as [(T & W1 & R)|(c & C & R)]; [apply W1; symmetry; apply (M2 s w (nm names s)); [exact (NM s TS)|rewrite R; exact (NM w T)]|exact (proj2 (M6 c _ C R) s (NM s TS))].
      + intros Q. destruct H as [(w & W)|(c & C & H)]; [|exfalso; apply Q, (new_ends es s t None None F0 names _ cs INV c n C H)]. destruct (M1 w n W) as (T & _). rewrite (NM w T) in W. injection W as <-.
        destruct (Z.eq_dec w t) as [->|W1]; [reflexivity|]. exfalso. apply Q, (out_of es s t None None F0 SI names _ cs INV w T W1).
      + intros -> (e & E & EQ). destruct (ends_of es s t None None F0 SO SI names _ cs INV e E) as ((w & R) & _). rewrite EQ in R. destruct R as [(T & W1 & R)|(c & C & R)]; [apply W1; symmetry; apply (M2 t w (nm names t)); [exact (NM t TT)|rewrite R; exact (NM w T)]|exact (proj2 (M6 c _ C R) t (NM t TT))].
    - apply M5. right. left. exists s. exact (NM s TS).
    - apply M5. right. left. exists t. exact (NM t TT).
    - exact (inv_closed es s t None None F0 CL names _ es cs INV).
    - intros x y. split.
      + intros CO. destruct (chunks_from es s t None None F0 SO SI names _ cs INV TS TT ST x y CO) as (b & Q1 & Q2 & Q3 & Q4). set (b' := fun n => if Z.eqb n (nm names t) then y else b n).
        assert (OUT : forall e, In e (List.concat (map c_edges cs)) -> fst (fst e) <> nm names t).
        { intros e E EQ. destruct (ends_of es s t None None F0 SO SI names _ cs INV e E) as ((w & R) & _). rewrite EQ in R. destruct R as [(T & W1 & R)|(c & C & R)]; [apply W1; symmetry; apply (M2 t w (nm names t)); [exact (NM t TT)|rewrite R; exact (NM w T)]|exact (proj2 (M6 c _ C R) t (NM t TT))]. }
        assert (SAME : forall n, into b' n (List.concat (map c_edges cs)) = into b n (List.concat (map c_edges cs))).
        { intros n. apply into_same. intros e E. unfold b'. destruct (Z.eqb_spec (fst (fst e)) (nm names t)) as [EQ|_]; [destruct (OUT e E EQ)|reflexivity]. }
        exists b'. split; [|split].
        * intros n H NS. unfold flat_values. rewrite M4. change (map _ _) with (into b' n (List.concat (map c_edges cs))). rewrite SAME. unfold b'. destruct (Z.eqb_spec n (nm names t)) as [->|NT]; [symmetry; exact Q4|]. apply M5 in H. destruct H as [[]|[(w & W)|(c & C & H)]]; [|exact (Q2 c n C H)].
          destruct (M1 w n W) as (T & _). rewrite (NM w T) in W. injection W as <-. apply Q3; [exact T| |]; intros ->; congruence.
        * unfold b'. destruct (Z.eqb_spec (nm names s) (nm names t)) as [EQ|_]; [|exact Q1]. exfalso. apply ST, (M2 s t (nm names s)); [exact (NM s TS)|rewrite EQ; exact (NM t TT)].
        * unfold b'. rewrite Z.eqb_refl. reflexivity.
      + intros (b & HB & <- & <-).
        unfold flat_values in HB. rewrite M4 in HB.
      assert (HT : b (nm names t) = total (into b (nm names t) (List.concat (map c_edges cs)))).
      { apply HB; [apply M5; right; left; exists t; exact (NM t TT)|]. intros EQ. apply ST. apply (M2 s t (nm names s)); [exact (NM s TS)|rewrite <- EQ; exact (NM t TT)]. }
      rewrite HT. apply (chunks_compute es s t None None F0 SO SI names _ cs INV TS TT ST).
        * intros c n C H. apply HB; [apply M5; right; right; exists c; auto|]. intros ->. exact (proj2 (M6 c _ C H) s (NM s TS)).
        * intros w T W1 W2. apply HB; [apply M5; right; left; exists w; exact (NM w T)|]. intros EQ. apply W1. apply (M2 w s (nm names w)); [exact (NM w T)|rewrite EQ; exact (NM s TS)].
  Qed.
End Same.

Lemma flat_same_ : forall A (es : list (Z * Z * hop A)), sound_op (Sub es) -> exists s t,
  (forall n, In n (f_nodes (flatten_graph es)) ->
     ((~ exists e, In e (f_edges (flatten_graph es)) /\ snd (fst e) = n) <-> n = s) /\ ((~ exists e, In e (f_edges (flatten_graph es)) /\ fst (fst e) = n) <-> n = t)) /\
  In s (f_nodes (flatten_graph es)) /\ In t (f_nodes (flatten_graph es)) /\
  (forall e, In e (f_edges (flatten_graph es)) -> In (fst (fst e)) (f_nodes (flatten_graph es)) /\ In (snd (fst e)) (f_nodes (flatten_graph es))) /\
  forall X (sem : A -> X -> X) plus zero, addition plus zero -> forall x y,
    computes sem (sum_of plus zero) (Sub es) x y <-> exists at_node, flat_values sem (sum_of plus zero) (flatten_graph es) s at_node /\ at_node s = x /\ at_node t = y.
Proof.
  intros A es SD. assert (AU : addition (fun _ _ : unit => tt) tt) by (repeat split; intros []; reflexivity).
  destruct (flatten_ok (fun (_ : A) (_ : unit) => tt) _ _ AU es SD) as (s & t & _ & H1 & H2 & H3 & H4 & _). exists s, t. split; [exact H1|]. split; [exact H2|]. split; [exact H3|]. split; [exact H4|].
  intros X sem plus zero AD. destruct (flatten_ok sem plus zero AD es SD) as (s' & t' & _ & K1 & K2 & K3 & _ & K5).
  assert (s' = s) by (apply (proj1 (H1 s' K2)); apply (proj1 (K1 s' K2)); reflexivity). assert (t' = t) by (apply (proj2 (H1 t' K3)); apply (proj2 (K1 t' K3)); reflexivity). subst s' t'. exact K5.
Qed.
Lemma flat_operations_ : forall A (es : list (Z * Z * hop A)), sound_op (Sub es) -> exists l, leaves (Sub es) l /\ map snd (f_edges (flatten_graph es)) = l.
Proof.
  intros A es SD. assert (AU : addition (fun _ _ : unit => tt) tt) by (repeat split; intros []; reflexivity).
  destruct (flatten_ok (fun (_ : A) (_ : unit) => tt) _ _ AU es SD) as (s & t & H & _). eexists. split; [exact H|reflexivity].
Qed.
Lemma source_check {A} (es : list (Z * Z * hop A)) s : touches es s -> ~ In s (map (fun e => snd (fst e)) es) -> (forall w, In w (map (fun e => fst (fst e)) es) -> w = s \/ In w (map (fun e => snd (fst e)) es)) -> source es s.
Proof.
  intros T N H w (e & I & W). split; [|intros ->; exact N]. intros Q. destruct W as [<-|<-]; [|exfalso; apply Q; apply in_map_iff; exists e; auto]. destruct (H (fst (fst e))) as [E|E]; [apply in_map_iff; exists e; auto|exact E|contradiction].
Qed.
Lemma sink_check {A} (es : list (Z * Z * hop A)) t : touches es t -> ~ In t (map (fun e => fst (fst e)) es) -> (forall w, In w (map (fun e => snd (fst e)) es) -> w = t \/ In w (map (fun e => fst (fst e)) es)) -> sink es t.
Proof.
  intros T N H w (e & I & W). split; [|intros ->; exact N]. intros Q. destruct W as [<-|<-]; [exfalso; apply Q; apply in_map_iff; exists e; auto|]. destruct (H (snd (fst e))) as [E|E]; [apply in_map_iff; exists e; auto|exact E|contradiction].
Qed.
Ltac sound_graph s t :=
  constructor; [discriminate
    |cbn; repeat (constructor; [intros HN; cbn [In] in HN; repeat (destruct HN as [HN|HN]; [discriminate|]); exact HN|]); constructor
    |exists s; assert (T : True) by exact Logic.I; split; [apply source_check|]
    |exists t; split; [apply sink_check|]
    |].
Lemma flat_same_example_ : let es := [(1, 2, Plain 5); (1, 3, Sub [(1, 2, Plain 6); (2, 3, Plain 7)]); (2, 3, Plain 8)] in
  sound_op (Sub es) /\ flatten_graph es = mkFlat [1; 2; 3; 4] [(1, 2, 5); (1, 4, 6); (4, 3, 7); (2, 3, 8)].
Proof.
  split; [|reflexivity].
  assert (IN : sound_op (Sub [(1, 2, Plain 6); (2, 3, Plain 7)])).
  { sound_graph 1 3.
    - exists (1, 2, Plain 6). cbn; auto.
    - cbn. lia.
    - intros w. cbn. lia.
    - exists (1, 2, Plain 6). cbn; auto.
    - exists (2, 3, Plain 7). cbn; auto.
    - cbn. lia.
    - intros w. cbn. lia.
    - exists (2, 3, Plain 7). cbn; auto.
    - repeat constructor; discriminate. }
  sound_graph 1 3.
  - exists (1, 2, Plain 5). cbn; auto.
  - cbn. lia.
  - intros w. cbn. lia.
  - exists (1, 2, Plain 5). cbn; auto.
  - exists (2, 3, Plain 8). cbn; auto.
  - cbn. lia.
  - intros w. cbn. lia.
  - exists (2, 3, Plain 8). cbn; auto.
  - repeat (constructor; [split; [discriminate|first [exact IN|constructor]]|]). constructor.
Qed.
Lemma flat_operations_example_ : leaves (Sub [(1, 2, Plain 5); (2, 3, Sub [(1, 2, Plain 6)])]) [5; 6] /\ map snd (f_edges (flatten_graph [(1, 2, Plain 5); (2, 3, Sub [(1, 2, Plain 6)])])) = [5; 6].
Proof.
  split; [|reflexivity]. apply (leaves_sub _ [[5]; [6]]). repeat constructor. apply (leaves_sub [(1, 2, Plain 6)] [[6]]). repeat constructor.
Qed.
