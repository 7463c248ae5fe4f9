(** Values of graphs. *)
From Verif Require Import Py Prune_model Prune_spec Prune_proofs Net_model Net_spec.
Local Open Scope nat_scope.
Local Open Scope list_scope.
Local Notation length := List.length.

Lemma max_app l n : fold_right Nat.max 0 (l ++ [n]) = Nat.max (fold_right Nat.max 0 l) n.
Proof. induction l as [|a l IH]; cbn [fold_right app]; [lia|]. rewrite IH. lia. Qed.
Lemma feeding_app g P Q n : feeding g (P ++ Q) n = feeding g P n ++ feeding g Q n.
Proof. apply filter_app. Qed.
Lemma feeding_In g P n u : In u (feeding g P n) <-> In u P /\ edge g u n.
Proof. unfold feeding, edge. rewrite filter_In. destruct (in_dec pair_dec (u, n) (edges g)); intuition discriminate. Qed.
Lemma feeding_one g n m : feeding g [n] m = if in_dec pair_dec (n, m) (edges g) then [n] else [].
Proof. unfold feeding. cbn [filter]. destruct (in_dec pair_dec (n, m) (edges g)); reflexivity. Qed.
Lemma feeding_all g P n R : NoDup (P ++ n :: R) -> (forall u, edge g u n -> In u (P ++ n :: R) -> exists a b c, P ++ n :: R = a ++ u :: b ++ n :: c) -> feeding g (P ++ n :: R) n = feeding g P n.
Proof.
  intros ND B. rewrite feeding_app. replace (feeding g (n :: R) n) with (@nil Z); [apply app_nil_r|]. symmetry. destruct (feeding g (n :: R) n) as [|u l] eqn:E; [reflexivity|]. exfalso.
  assert (U : In u (feeding g (n :: R) n)) by (rewrite E; left; reflexivity). apply feeding_In in U. destruct U as (U & UE).
  destruct (B u UE) as (a & b & c & Q); [apply in_or_app; right; exact U|].
  assert (Q2 : P ++ n :: R = (a ++ u :: b) ++ n :: c) by (rewrite <- app_assoc; exact Q).
  assert (Q3 : P = a ++ u :: b /\ R = c).
  { pose proof ND as ND2. rewrite Q2 in ND2. revert Q2 ND ND2. generalize (a ++ u :: b) as d. clear. intros d. revert d. induction P as [|p P IH]; intros d Q ND ND2.
    - destruct d as [|p d]; [injection Q as ->; auto|]. injection Q as -> ->. exfalso. cbn in ND2. inversion ND2 as [|? ? N _]; subst. apply N, in_or_app. right. left. reflexivity.
    - destruct d as [|q d]; [injection Q as <- <-; exfalso; inversion ND as [|? ? N _]; subst; apply N, in_or_app; right; left; reflexivity|]. injection Q as -> Q. inversion ND; inversion ND2; subst. destruct (IH d Q) as (-> & ->); auto. }
  destruct Q3 as (-> & ->). rewrite <- app_assoc in ND. apply NoDup_remove_2 in ND. apply ND. apply in_or_app. right. cbn [app] in *. apply in_or_app. right. destruct U as [->|U]; [left; reflexivity|right; exact U].
Qed.
Lemma succs_NoDup g n : NoDup (edges g) -> NoDup (succs g n).
Proof.
  unfold succs. induction (edges g) as [|(u, v) l IH]; intros ND; [constructor|]. inversion ND as [|? ? N ND2]; subst. cbn [filter fst]. destruct (Z.eqb_spec u n) as [->|]; [|apply IH, ND2].
  cbn [map snd]. constructor; [|apply IH, ND2]. intros I. apply in_map_iff in I. destruct I as ((a, b) & <- & I). apply filter_In in I. destruct I as (I & E). apply Z.eqb_eq in E. cbn [fst snd] in *. subst a. contradiction.
Qed.

(** ** The module made of a graph *)
Section Module.
  Context {X : Type}.
  Variables (op : Z -> Z -> edge_op (X := X)) (comb : Z -> comb_op (X := X)) (total : list X -> X).
  Variables (g : graph) (order : list Z) (src : Z) (f : Z -> Z -> X -> X) (mg : Z -> list X -> X) (x : X) (at_ : Z -> X).
  Hypothesis ED : NoDup (edges g).
  Hypothesis PR : proper g.
  Hypothesis TO : topological g order.
  Hypothesis SRC : only g (fun n => forall u, ~ edge g u n) src.
  Hypothesis OPS : forall u v, edge g u v -> does (op u v) (f u v).
  Hypothesis COMB : forall n, In n order -> 1 < length (feeding g order n) -> combines total (comb n) (mg n).
  Hypothesis V : values g order src f mg x at_.

  Lemma get_all_map (e : env (X := X)) ks ys : Forall2 (fun k y => e k = Some y) ks ys -> get_all e ks = Some ys.
  Proof. induction 1 as [|k y ks ys E _ IH]; [reflexivity|]. cbn [get_all]. rewrite E, IH. reflexivity. Qed.

  Definition reaches (s : gen (X := X)) (e : env (X := X)) : Prop := forall more lines,
    execute total (modules s ++ more) (forward s ++ lines) (assign (fun _ => None) 0 x) = execute total (modules s ++ more) lines e.
  Definition inv (e : env (X := X)) (P : list Z) (c : Z -> list Z) (s : gen (X := X)) : Prop :=
    reaches s e /\ (forall k, e k <> None -> k <= max_used s) /\
    (forall m, In m order -> ~ In m P -> m <> src -> Forall2 (fun u kn => fst kn = u /\ e (snd kn) = Some (f u m (at_ u))) (c m) (inputs s m)) /\
    (~ In src P -> inputs s src = [(0%Z, 0)] /\ e 0 = Some x) /\ existsb broken (forward s) = false.
  Lemma assign_old (e : env (X := X)) k (y : X) m : (forall j, e j <> None -> j <= m) -> e k = Some y -> forall z, assign e (S m) z k = Some y.
  Proof. intros B E z. unfold assign. destruct (Nat.eqb_spec k (S m)) as [->|]; [|exact E]. assert (S m <= m) by (apply B; congruence). lia. Qed.
  Lemma inv_ext e P c c' s : (forall m, c m = c' m) -> inv e P c s -> inv e P c' s.
  Proof. intros E (A & B & C & D). split; [exact A|]. split; [exact B|]. split; [|exact D]. intros m M1 M2 M3. rewrite <- E. apply C; assumption. Qed.
  Lemma reaches_step s e l ms e' : reaches s e -> (forall more lines, execute total ((modules s ++ ms) ++ more) (l :: lines) e = execute total ((modules s ++ ms) ++ more) lines e') ->
    forall s', modules s' = modules s ++ ms -> forward s' = forward s ++ [l] -> reaches s' e'.
  Proof.
    intros R ST s' E1 E2 more lines. rewrite E1, E2. rewrite <- !app_assoc. cbn [app]. rewrite (R (ms ++ more) (l :: lines)). specialize (ST more lines). rewrite <- app_assoc in ST. exact ST.
  Qed.
  Lemma nth_next {A} (l : list A) a more : nth_error ((l ++ [a]) ++ more) (length l) = Some a.
  Proof. rewrite <- app_assoc. rewrite nth_error_app2 by lia. rewrite Nat.sub_diag. reflexivity. Qed.
  Lemma unbroken (l : list line) a : existsb broken l = false -> broken a = false -> existsb broken (l ++ [a]) = false.
  Proof. intros A B. rewrite existsb_app, A. cbn. rewrite B. reflexivity. Qed.

  Lemma merge_ok e P c s n : inv e P c s -> In n order -> ~ In n P -> (n <> src -> c n = feeding g order n) ->
    exists s' e', gen_merge comb n s = Ok s' /\ inv e' (n :: P) c s' /\ e' (var s') = Some (at_ n).
  Proof.
    intros (R & B & C & D & BR) IN NP CN. unfold gen_merge. destruct (Z.eq_dec n src) as [->|NS].
    - destruct (D NP) as (E1 & E2). rewrite E1. cbn [map snd bind]. eexists _, e. split; [reflexivity|]. split; [|cbn [var]; rewrite E2; f_equal; symmetry; apply V].
      split; [exact R|]. split; [exact B|]. split; [|split; [|exact BR]].
      + intros m M1 M2 M3. cbn [inputs]. unfold set_input. destruct (Z.eqb_spec m src); [contradiction|]. apply C; [exact M1|intros I; apply M2; right; exact I|exact M3].
      + intros I. exfalso. apply I. left. reflexivity.
    - specialize (C n IN NP NS) as F. rewrite (CN NS) in F. pose proof (proj2 V n IN NS) as AN.
      assert (FV : Forall2 (fun k y => e k = Some y) (map snd (inputs s n)) (map (fun u => f u n (at_ u)) (feeding g order n))).
      { clear -F. induction F as [|u kn l l' (_ & E) _ IH]; cbn [map]; constructor; assumption. }
      assert (NE : feeding g order n <> []).
      { destruct (preds g n) as [|u l] eqn:EP.
        - exfalso. apply NS. apply SRC. split; [apply TO, IN|]. apply no_preds. rewrite EP. reflexivity.
        - assert (U : edge g u n) by (apply preds_iff; rewrite EP; left; reflexivity). intros Z. assert (I : In u (feeding g order n)) by (apply feeding_In; split; [apply TO, (proj2 PR u n U)|exact U]). rewrite Z in I. exact I. }
      assert (KEEP : forall (e' : env (X := X)) (s' : gen (X := X)), (forall k y, e k = Some y -> e' k = Some y) -> inputs s' = set_input (inputs s) n [] ->
                (forall m, In m order -> ~ In m (n :: P) -> m <> src -> Forall2 (fun u kn => fst kn = u /\ e' (snd kn) = Some (f u m (at_ u))) (c m) (inputs s' m)) /\ (~ In src (n :: P) -> inputs s' src = [(0%Z, 0)] /\ e' 0 = Some x)).
      { intros e' s' K E. rewrite E. unfold set_input. split.
        - intros m M1 M2 M3. destruct (Z.eqb_spec m n) as [->|]; [exfalso; apply M2; left; reflexivity|]. assert (M4 : ~ In m P) by (intros I; apply M2; right; exact I). specialize (C m M1 M4 M3). clear -C K.
          induction C as [|u kn l l' (A1 & A2) _ IH]; constructor; [split; [exact A1|apply K, A2]|exact IH].
        - intros I. destruct (Z.eqb_spec src n) as [->|]; [contradiction|]. destruct D as (D1 & D2); [intros J; apply I; right; exact J|]. split; [exact D1|apply K, D2]. }
      destruct (map snd (inputs s n)) as [|k [|k2 ks]] eqn:EA.
      + exfalso. destruct (feeding g order n) as [|u l]; [congruence|]. cbn [map] in FV. inversion FV.
      + assert (SG : exists y, e k = Some y /\ map (fun u => f u n (at_ u)) (feeding g order n) = [y]).
        { destruct (map (fun u => f u n (at_ u)) (feeding g order n)) as [|y ys]; [inversion FV|]. inversion FV as [|? ? ? ? E1 E2]. subst. inversion E2. exists y. auto. }
        destruct SG as (y & E1 & E4). cbn [bind]. eexists _, e. split; [reflexivity|]. split.
        * split; [exact R|]. split; [exact B|]. edestruct KEEP as (K1 & K2); [| |split; [exact K1|split; [exact K2|exact BR]]]; [auto|reflexivity].
        * cbn [var]. rewrite E1, AN, E4. reflexivity.
      + assert (LN : 1 < length (feeding g order n)).
        { apply (f_equal (@length nat)) in EA. rewrite map_length in EA. assert (L : length (inputs s n) = length (feeding g order n)) by (clear -F; induction F; cbn; congruence). cbn [length] in EA. lia. }
        assert (AM : at_ n = mg n (map (fun u => f u n (at_ u)) (feeding g order n))).
        { rewrite AN. unfold merged. destruct (map (fun u => f u n (at_ u)) (feeding g order n)) as [|y [|y2 ys]] eqn:EM; [reflexivity| |reflexivity]. apply (f_equal (@length X)) in EM. rewrite map_length in EM. cbn in EM. lia. }
        pose proof (get_all_map _ _ _ FV) as GA.
        assert (K : forall z k y, e k = Some y -> assign e (S (max_used s)) z k = Some y) by exact (fun z k' y' E' => assign_old e k' y' (max_used s) B E' z).
        assert (BB : forall z k, assign e (S (max_used s)) z k <> None -> k <= fold_right Nat.max 0 (used s ++ [S (max_used s)])).
        { intros z j J. rewrite max_app. fold (max_used s). unfold assign in J. destruct (Nat.eqb_spec j (S (max_used s))) as [EJ|_]; [lia|]. specialize (B _ J). lia. }
        destruct (COMB n IN LN) as [EC|(EC & ET)]; rewrite EC; cbn [bind].
        * eexists _, (assign e (S (max_used s)) (at_ n)). split; [reflexivity|]. split; [|cbn [var]; unfold assign; rewrite Nat.eqb_refl; reflexivity].
          split; [eapply reaches_step; [exact R| |reflexivity|reflexivity]|].
          { intros more lines. cbn [execute]. rewrite GA, nth_next, AM. reflexivity. }
          split; [intros j J; exact (BB _ j J)|]. edestruct KEEP as (K1 & K2); [| |split; [exact K1|split; [exact K2|]]]; [intros j y; apply K|reflexivity|]. apply unbroken; [exact BR|reflexivity].
        * eexists _, (assign e (S (max_used s)) (at_ n)). split; [reflexivity|]. split; [|cbn [var]; unfold assign; rewrite Nat.eqb_refl; reflexivity].
          split; [eapply (reaches_step s e _ []); [exact R| |cbn [modules]; symmetry; apply app_nil_r|reflexivity]|].
          { intros more lines. cbn [execute]. rewrite GA, AM, ET. reflexivity. }
          split; [intros j J; exact (BB _ j J)|]. edestruct KEEP as (K1 & K2); [| |split; [exact K1|split; [exact K2|]]]; [intros j y; apply K|reflexivity|]. apply unbroken; [exact BR|reflexivity].
  Qed.

  Lemma dict_set_new k v l : ~ In k (map fst l) -> dict_set k v l = l ++ [(k, v)].
  Proof. induction l as [|(k', v') l IH]; intros N; [reflexivity|]. cbn [dict_set app]. destruct (Z.eqb_spec k k') as [->|]; [exfalso; apply N; left; reflexivity|]. rewrite IH; [reflexivity|]. intros I. apply N. right. exact I. Qed.
  Lemma edge_ok e P c s n v : inv e P c s -> e (var s) = Some (at_ n) -> edge g n v -> ~ In v P -> In src P -> ~ In n (c v) ->
    exists s' e', gen_edge op n (Ok s) v = Ok s' /\ inv e' P (fun m => if Z.eqb m v then c v ++ [n] else c m) s' /\ e' (var s') = Some (at_ n).
  Proof.
    intros (R & B & C & D & BR) EV E NV SP NC. unfold gen_edge. cbn [bind]. unfold does in OPS. rewrite (OPS n v E).
    set (y := f n v (at_ n)).
    assert (K : forall k z, e k = Some z -> assign e (S (max_used s)) y k = Some z) by exact (fun k z E' => assign_old e k z (max_used s) B E' y).
    eexists _, (assign e (S (max_used s)) y). split; [reflexivity|]. split; [|cbn [var]; apply K, EV]. split; [|split; [|split; [|split]]].
    - eapply reaches_step; [exact R| |reflexivity|reflexivity]. intros more lines. cbn [execute]. rewrite EV, nth_next. reflexivity.
    - intros j J. unfold max_used. cbn [used]. rewrite max_app. fold (max_used s). unfold assign in J. destruct (Nat.eqb_spec j (S (max_used s))) as [EJ|_]; [lia|]. specialize (B _ J). lia.
    - intros m M1 M2 M3. cbn [inputs]. unfold set_input. specialize (C m M1 M2 M3).
      assert (C' : Forall2 (fun u kn => fst kn = u /\ assign e (S (max_used s)) y (snd kn) = Some (f u m (at_ u))) (c m) (inputs s m)).
      { clear -C K. induction C as [|u kn l l' (A1 & A2) _ IH]; constructor; [split; [exact A1|apply K, A2]|exact IH]. }
      destruct (Z.eqb_spec m v) as [->|]; [|exact C']. rewrite dict_set_new.
      + apply Forall2_app; [exact C'|]. constructor; [|constructor]. cbn [fst snd]. split; [reflexivity|]. unfold assign. rewrite Nat.eqb_refl. reflexivity.
      + replace (map fst (inputs s v)) with (c v); [exact NC|]. clear -C. induction C as [|u kn l l' (A1 & _) _ IH]; [reflexivity|]. cbn [map]. congruence.
    - intros N. contradiction.
    - apply unbroken; [exact BR|reflexivity].
  Qed.
  Lemma edges_ok n P : In src P -> forall vs, NoDup vs -> (forall v, In v vs -> edge g n v /\ ~ In v P) -> forall e c s, inv e P c s -> e (var s) = Some (at_ n) -> (forall v, In v vs -> ~ In n (c v)) ->
    exists s' e', fold_left (gen_edge op n) vs (Ok s) = Ok s' /\ inv e' P (fun m => if in_dec Z.eq_dec m vs then c m ++ [n] else c m) s' /\ e' (var s') = Some (at_ n).
  Proof.
    intros SP. induction vs as [|v vs IH]; intros ND H e c s I EV NC.
    - exists s, e. split; [reflexivity|]. split; [exact I|exact EV].
    - inversion ND as [|? ? NV ND2]; subst. cbn [fold_left]. destruct (H v (or_introl eq_refl)) as (H1 & H2).
      destruct (edge_ok e P c s n v I EV H1 H2 SP (NC v (or_introl eq_refl))) as (s1 & e1 & -> & I1 & EV1).
      destruct (IH ND2 (fun w W => H w (or_intror W)) e1 _ s1 I1 EV1) as (s2 & e2 & E2 & I2 & EV2).
      { intros w W. cbn beta. destruct (Z.eqb_spec w v) as [->|]; [contradiction|]. apply NC. right. exact W. }
      exists s2, e2. split; [exact E2|]. split; [|exact EV2]. revert I2. apply inv_ext. intros m. cbn beta. destruct (Z.eqb_spec m v) as [->|NE].
      + destruct (in_dec Z.eq_dec v vs); [contradiction|]. destruct (in_dec Z.eq_dec v (v :: vs)) as [_|N]; [reflexivity|]. exfalso. apply N. left. reflexivity.
      + destruct (in_dec Z.eq_dec m vs) as [W|W]; destruct (in_dec Z.eq_dec m (v :: vs)) as [U|U]; try reflexivity; exfalso; [apply U; right; exact W|destruct U; [congruence|contradiction]].
  Qed.

  Hypothesis TGT : forall n, In n order -> succs g n = [] -> (List.last order 0%Z <= n)%Z.
  Lemma before_only P n R u : order = P ++ n :: R -> edge g u n -> In u P.
  Proof.
    intros E U. destruct TO as (T1 & T2 & T3). assert (UO : In u order) by (apply T1, (proj2 PR u n U)).
    assert (F : feeding g order n = feeding g P n) by (rewrite E in *; apply feeding_all; [exact T2|intros w W _; exact (T3 w n W)]).
    assert (I : In u (feeding g order n)) by (apply feeding_In; auto). rewrite F in I. apply feeding_In in I. apply I.
  Qed.
  Lemma first_src n R : order = n :: R -> n = src.
  Proof. intros E. apply SRC. split; [apply TO; rewrite E; left; reflexivity|]. intros u U. exact (before_only [] n R u E U). Qed.
  Lemma loop_ok : forall R P e s, order = P ++ R -> (R <> [] \/ e (var s) = Some (at_ (List.last order 0%Z))) -> inv e P (feeding g P) s ->
    exists s' e', fold_left (gen_node op comb g (List.last order 0%Z)) R (Ok s) = Ok s' /\ inv e' order (feeding g order) s' /\ e' (var s') = Some (at_ (List.last order 0%Z)).
  Proof.
    induction R as [|n R IH]; intros P e s E NE I.
    - rewrite app_nil_r in E. subst P. exists s, e. split; [reflexivity|]. split; [exact I|]. destruct NE as [NE|NE]; [congruence|exact NE].
    - pose proof TO as (T1 & T2 & T3). assert (IN : In n order) by (rewrite E; apply in_or_app; right; left; reflexivity).
      assert (NP : ~ In n P) by (intros J; rewrite E in T2; apply NoDup_remove_2 in T2; apply T2, in_or_app; left; exact J).
      assert (F : feeding g order n = feeding g P n) by (rewrite E in *; apply feeding_all; [exact T2|intros w W _; exact (T3 w n W)]).
      cbn [fold_left]. unfold gen_node at 2. cbn [bind]. destruct (merge_ok e P _ s n I IN NP (fun _ => eq_sym F)) as (s1 & e1 & -> & I1 & EV1). cbn [bind].
      replace (is_nil (succs g n) && (n <? List.last order 0)%Z) with false.
      2:{ symmetry. destruct (is_nil (succs g n)) eqn:IS; [|reflexivity]. cbn [andb]. apply Z.ltb_ge. apply TGT; [exact IN|]. apply is_nil_iff, IS. }
      assert (SP : In src (n :: P)) by (destruct P as [|p P]; [left; exact (first_src n R E)|right; left; exact (first_src p _ E)]).
      destruct (edges_ok n (n :: P) SP (succs g n) (succs_NoDup g n ED)) with (e := e1) (c := feeding g P) (s := s1) as (s2 & e2 & -> & I2 & EV2); [|exact I1|exact EV1| |].
      + intros v W. apply succs_iff in W. split; [exact W|]. intros J. destruct (T3 n v W) as (a & b & c & Q).
        assert (J2 : In v (P ++ [n])) by (apply in_or_app; destruct J as [J|J]; [right; left; exact J|left; exact J]).
        assert (FV : feeding g order v = feeding g (a ++ n :: b) v).
        { replace order with ((a ++ n :: b) ++ v :: c) by (rewrite Q, <- app_assoc; reflexivity). apply feeding_all; [rewrite <- app_assoc; cbn [app]; rewrite <- Q; exact T2|]. intros w U _. rewrite <- app_assoc. cbn [app]. rewrite <- Q. exact (T3 w v U). }
        destruct (in_split v (P ++ [n]) J2) as (a2 & b2 & Q2). assert (Q3 : order = a2 ++ v :: b2 ++ R) by (rewrite E; change (n :: R) with ([n] ++ R); rewrite app_assoc, Q2, <- app_assoc; reflexivity).
        pose proof (before_only a2 v (b2 ++ R) n Q3 W) as NA. rewrite E in T2. change (n :: R) with ([n] ++ R) in T2. rewrite app_assoc in T2.
        assert (T2' : NoDup (P ++ [n])) by (clear -T2; induction (P ++ [n]) as [|p l IHl]; [constructor|]; cbn in T2; inversion T2 as [|? ? N1 N2]; subst; constructor; [intros Z; apply N1, in_or_app; left; exact Z|apply IHl, N2]).
        destruct b2 as [|z b2] using rev_ind; [rewrite Q2 in T2'; apply app_inj_tail in Q2; destruct Q2 as (_ & <-); apply NoDup_remove_2 in T2'; apply T2', in_or_app; left; exact NA|]. clear IHb2.
        rewrite app_comm_cons, app_assoc in Q2. apply app_inj_tail in Q2. destruct Q2 as (QP & <-). apply NP. rewrite QP. apply in_or_app. left. exact NA.
      + intros v W J. apply feeding_In in J. apply NP, J.
      + apply (IH (P ++ [n]) e2 s2); [rewrite <- app_assoc; exact E| |].
        * destruct R as [|r R]; [right|left; discriminate]. rewrite EV2, E, last_last. reflexivity.
        * assert (I3 : inv e2 (n :: P) (feeding g (P ++ [n])) s2).
          { revert I2. apply inv_ext. intros m. cbn beta. rewrite feeding_app, feeding_one. destruct (in_dec Z.eq_dec m (succs g n)) as [W|W]; destruct (in_dec pair_dec (n, m) (edges g)) as [U|U]; try reflexivity.
            - exfalso. apply U. apply succs_iff, W.
            - exfalso. apply W. apply succs_iff, U.
            - symmetry. apply app_nil_r. }
          destruct I3 as (A1 & A2 & A3 & A4 & A5). split; [exact A1|]. split; [exact A2|]. split; [|split; [|exact A5]].
          -- intros m M1 M2 M3. apply A3; [exact M1| |exact M3]. intros J. apply M2, in_or_app. destruct J as [J|J]; [right; left; exact J|left; exact J].
          -- intros J. apply A4. intros Z. apply J, in_or_app. destruct Z as [Z|Z]; [right; left; exact Z|left; exact Z].
  Qed.
  Lemma module_ok : exists m, to_pytorch op comb g order = Ok m /\ call_module total m x = Ok (at_ (List.last order 0%Z)).
  Proof.
    unfold to_pytorch. assert (S1 : In src (filter (fun n => is_nil (preds g n)) (nodes g))) by (apply filter_In; rewrite no_preds; apply SRC; reflexivity).
    destruct (filter (fun n => is_nil (preds g n)) (nodes g)) as [|i l] eqn:EF; [destruct S1|]. assert (i = src) as ->.
    { apply SRC. rewrite <- no_preds. apply (proj1 (filter_In (fun n => is_nil (preds g n)) i (nodes g))). rewrite EF. left. reflexivity. }
    clear S1 EF.
    assert (NE : order <> []) by (intros E; assert (Z : In src order) by (apply TO, SRC; reflexivity); rewrite E in Z; exact Z).
    set (s0 := mkGen _ _ _ _ _). destruct (loop_ok order [] (assign (fun _ => None) 0 x) s0 eq_refl (or_introl NE)) as (s & e & -> & (R & _ & _ & _ & BR) & EV).
    - split; [intros more lines; reflexivity|]. split; [|split; [|split; [|reflexivity]]].
      + intros k K. unfold assign in K. destruct (Nat.eqb_spec k 0) as [EK|_]; [lia|congruence].
      + intros m _ _ M. cbn [inputs s0 feeding filter]. subst s0. cbn [inputs]. destruct (Z.eqb_spec m src); [contradiction|]. constructor.
      + intros _. subst s0. cbn [inputs]. rewrite Z.eqb_refl. split; reflexivity.
    - cbn [bind]. rewrite BR. eexists. split; [reflexivity|]. unfold call_module. cbn [fst snd]. specialize (R [] [Return (var s)]). rewrite app_nil_r in R. rewrite R. cbn [execute]. rewrite EV. reflexivity.
  Qed.
End Module.
