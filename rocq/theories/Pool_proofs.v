(** Pools of candidates. *)
From Verif Require Import Py Pool_model Pool_spec.
From Coq Require Import Permutation Sorted.
Local Open Scope nat_scope.
Local Open Scope list_scope.
Local Notation length := List.length.

Section Pool.
  Context {X : Type}.
  Variables (mutate : nat -> X -> res X) (eqb : X -> X -> bool) (hash : nat -> X -> Z).
  Definition child_of (allow : bool) (c : X) (m : X * Z) : Prop := exists t, mutate t c = Ok (fst m) /\ snd m = hash t (fst m) /\ (allow = false -> eqb (fst m) c = false).
  Lemma attempts_ok allow c seen : forall p t t' p' r, attempts mutate eqb hash allow p t c seen = (t', p', Some r) -> child_of allow c r /\ (allow = false -> ~ In (snd r) seen).
  Proof.
    induction p as [|p IH]; intros t t' p' r H; [discriminate|]. cbn [attempts] in H. destruct (mutate t c) as [m|e] eqn:M; [|exact (IH _ _ _ _ H)].
    destruct (negb allow && (eqb m c || existsb (Z.eqb (hash t m)) seen)) eqn:B; [exact (IH _ _ _ _ H)|]. injection H as <- <- <-. cbn [fst snd]. split.
    - exists t. split; [exact M|]. split; [reflexivity|]. intros ->. cbn [negb andb] in B. apply orb_false_iff in B. apply B.
    - intros -> I. cbn [negb andb] in B. apply orb_false_iff in B. destruct B as (_ & B). assert (E : existsb (Z.eqb (hash t m)) seen = true) by (apply existsb_exists; eexists; split; [exact I|apply Z.eqb_refl]). congruence.
  Qed.
  Lemma attempts_calls allow c seen : forall p t t' p' r, attempts mutate eqb hash allow p t c seen = (t', p', r) -> t' + p' <= t + p + match r with Some _ => 1 | None => 0 end.
  Proof.
    induction p as [|p IH]; intros t t' p' r H; cbn [attempts] in H; [injection H as <- <- <-; lia|]. destruct (mutate t c) as [m|e]; [|specialize (IH _ _ _ _ H); lia].
    destruct (negb allow && (eqb m c || existsb (Z.eqb (hash t m)) seen)); [specialize (IH _ _ _ _ H); lia|]. injection H as <- <- <-. lia.
  Qed.
  Lemma children_calls allow c : forall k p t kept t' kept', children mutate eqb hash allow k p t c kept = (t', kept') -> t' <= t + (length kept' - length kept) + p /\ length kept <= length kept'.
  Proof.
    induction k as [|k IH]; intros p t kept t' kept' H; cbn [children] in H; [injection H as <- <-; lia|]. destruct (attempts mutate eqb hash allow p t c (map snd kept)) as ((t1, p1), [r|]) eqn:A; apply attempts_calls in A; destruct (IH _ _ _ _ _ H) as (L1 & L2); cbn [List.length] in L1, L2; lia.
  Qed.
  Definition fine (allow : bool) (cs : list X) (kept : list (X * Z)) : Prop := (forall m, In m kept -> exists c, In c cs /\ child_of allow c m) /\ (allow = false -> NoDup (map snd kept)).
  Lemma children_ok allow cs c : In c cs -> forall k p t kept t' kept', fine allow cs kept -> children mutate eqb hash allow k p t c kept = (t', kept') -> fine allow cs kept' /\ length kept' <= length kept + k.
  Proof.
    intros IC. induction k as [|k IH]; intros p t kept t' kept' F H; cbn [children] in H; [injection H as <- <-; split; [exact F|lia]|].
    destruct (attempts mutate eqb hash allow p t c (map snd kept)) as ((t1, p1), [r|]) eqn:A.
    - destruct (attempts_ok _ _ _ _ _ _ _ _ A) as (C1 & C2). destruct (IH _ _ (r :: kept) _ _ ltac:(destruct F as (F1 & F2); split; [intros m [<-|I]; [exists c; auto|exact (F1 m I)]|intros E; cbn [map]; constructor; auto]) H) as (G & L). split; [exact G|]. cbn [List.length] in L. lia.
    - destruct (IH _ _ _ _ _ F H) as (G & L). split; [exact G|lia].
  Qed.
  Lemma all_children_ok allow cs k p : forall configs t kept, (forall c, In c configs -> In c cs) -> fine allow cs kept -> fine allow cs (all_children mutate eqb hash allow k p t configs kept) /\ length (all_children mutate eqb hash allow k p t configs kept) <= length kept + k * length configs.
  Proof.
    induction configs as [|c configs IH]; intros t kept I F; cbn [all_children List.length]; [split; [exact F|lia]|]. destruct (children mutate eqb hash allow k p t c kept) as (t', kept') eqn:E.
    destruct (children_ok allow cs c (I c (or_introl eq_refl)) _ _ _ _ _ _ F E) as (F' & L). destruct (IH t' kept' (fun c' J => I c' (or_intror J)) F') as (F2 & L2). split; [exact F2|lia].
  Qed.

  Lemma insert_loss_perm (x : X * Z) l : Permutation (insert_loss x l) (x :: l).
  Proof. induction l as [|y l IH]; [reflexivity|]. cbn [insert_loss]. destruct (Z.leb (snd x) (snd y)); [reflexivity|]. rewrite IH. apply perm_swap. Qed.
  Lemma sort_loss_perm (l : list (X * Z)) : Permutation (sort_loss l) l.
  Proof. induction l as [|x l IH]; [reflexivity|]. cbn. rewrite insert_loss_perm, IH. reflexivity. Qed.
  Lemma insert_loss_sorted (x : X * Z) l : StronglySorted (fun a b => snd a <= snd b)%Z l -> StronglySorted (fun a b => snd a <= snd b)%Z (insert_loss x l).
  Proof.
    induction 1 as [|y l S IH F]; [repeat constructor|]. cbn [insert_loss]. destruct (Z.leb_spec (snd x) (snd y)).
    - constructor; [constructor; assumption|]. constructor; [assumption|]. eapply Forall_impl; [|exact F]. cbn. intros a. lia.
    - constructor; [exact IH|]. rewrite Forall_forall in *. intros a I. apply (Permutation_in _ (insert_loss_perm x l)) in I. destruct I as [<-|I]; [lia|exact (F a I)].
  Qed.
  Lemma sort_loss_sorted (l : list (X * Z)) : StronglySorted (fun a b => snd a <= snd b)%Z (sort_loss l).
  Proof. induction l as [|x l IH]; [constructor|]. apply insert_loss_sorted, IH. Qed.
  Lemma filter_length_perm {A} (f : A -> bool) l l' : Permutation l l' -> length (filter f l) = length (filter f l').
  Proof. induction 1 as [|x l l' P IH|x y l|l l' l'' P1 IH1 P2 IH2]; [reflexivity| | |congruence]; cbn [filter]; [destruct (f x); cbn [List.length]; congruence|]. destruct (f x), (f y); reflexivity. Qed.
  Lemma firstn_in {A} n (l : list A) x : In x (firstn n l) -> exists a b, l = a ++ x :: b /\ length a < n.
  Proof.
    revert l. induction n as [|n IH]; intros [|y l] I; [destruct I..|]. destruct I as [->|I]; [exists [], l; split; [reflexivity|cbn; lia]|]. destruct (IH l I) as (a & b & -> & L). exists (y :: a), b. split; [reflexivity|cbn [List.length]; lia].
  Qed.
  Lemma filter_length_le {A} (f : A -> bool) l : length (filter f l) <= length l.
  Proof. induction l as [|x l IH]; [reflexivity|]. cbn [filter]. destruct (f x); cbn [List.length]; lia. Qed.
  Lemma best_ok n (data : list (X * Z)) x : In x (best_configs n data) -> among_best n data x.
  Proof.
    unfold best_configs. rewrite firstn_map. intros I. apply in_map_iff in I. destruct I as ((x', y) & E & I). cbn [fst] in E. subst x'. destruct (firstn_in _ _ _ I) as (a & b & E & L). exists y. split.
    - apply (Permutation_in _ (sort_loss_perm data)). rewrite E. apply in_or_app. right. left. reflexivity.
    - rewrite <- (filter_length_perm _ _ _ (sort_loss_perm data)), E, filter_app, app_length.
      assert (Z0 : filter (fun d : X * Z => Z.ltb (snd d) y) ((x, y) :: b) = []).
      { pose proof (sort_loss_sorted data) as S. rewrite E in S. clear -S. assert (F : Forall (fun d : X * Z => y <= snd d)%Z ((x, y) :: b)).
        { induction a as [|z a IH]; cbn [app] in S; inversion S as [|? ? S1 S2]; subst; [constructor; [cbn; lia|exact S2]|exact (IH S1)]. }
        revert F. generalize ((x, y) :: b) as m. induction m as [|d m IH]; intros F; [reflexivity|]. inversion F; subst. cbn [filter]. destruct (Z.ltb_spec (snd d) y); [lia|]. apply IH. assumption. }
      rewrite Z0. cbn [List.length]. pose proof (filter_length_le (fun d : X * Z => Z.ltb (snd d) y) a). lia.
  Qed.
  Lemma best_length n (data : list (X * Z)) : length (best_configs n data) <= n.
  Proof. unfold best_configs. rewrite firstn_length. lia. Qed.

  Variable random : nat -> X.
  Lemma pool_ok allow n_best mutate_size patience pool_size data : data <> [] -> 0 < n_best ->
    exists mutants, create_pool mutate eqb hash random allow n_best mutate_size patience pool_size data = Ok (mutants ++ map random (seq 0 (pool_size - length mutants))) /\
      length mutants <= mutate_size /\ (forall m, In m mutants -> exists c t, among_best n_best data c /\ mutate t c = Ok m /\ (allow = false -> eqb m c = false)).
  Proof.
    intros ND N. unfold create_pool. destruct data as [|d0 data0]; [contradiction|]. set (data := d0 :: data0) in *. set (n := if Nat.ltb (length data) n_best then length data else n_best).
    assert (N1 : 0 < n) by (unfold n; destruct (Nat.ltb (length data) n_best); [unfold data; cbn [List.length]; lia|exact N]). assert (N2 : n <= n_best) by (unfold n; destruct (Nat.ltb_spec (length data) n_best); lia).
    destruct (Nat.eqb_spec n 0); [lia|]. eexists. split; [reflexivity|]. destruct (all_children_ok allow (best_configs n data) (mutate_size / n) patience (best_configs n data) 0 []) as ((F & _) & L); [auto|split; [intros m []|constructor]|].
    split.
    - rewrite rev_length, map_length. cbn [List.length] in L. pose proof (best_length n data). pose proof (Nat.mul_div_le mutate_size n ltac:(lia)). nia.
    - intros m I. rewrite <- in_rev in I. apply in_map_iff in I. destruct I as (r & <- & I). destruct (F r I) as (c & C1 & t & C2 & _ & C3). exists c, t. split; [|split; assumption]. destruct (best_ok n data c C1) as (y & Y1 & Y2). exists y. split; [exact Y1|lia].
  Qed.
  Lemma pool_distinct n_best mutate_size patience pool_size data (h : X -> Z) : (forall t x, hash t x = h x) -> (forall a b, eqb a b = true -> h a = h b) -> data <> [] -> 0 < n_best ->
    exists mutants, create_pool mutate eqb hash random false n_best mutate_size patience pool_size data = Ok (mutants ++ map random (seq 0 (pool_size - length mutants))) /\ ForallOrdPairs (fun a b => eqb a b = false) mutants.
  Proof.
    intros HH HE ND N. unfold create_pool. destruct data as [|d0 data0]; [contradiction|]. set (data := d0 :: data0) in *. set (n := if Nat.ltb (length data) n_best then length data else n_best).
    assert (N1 : 0 < n) by (unfold n; destruct (Nat.ltb (length data) n_best); [unfold data; cbn [List.length]; lia|exact N]).
    destruct (Nat.eqb_spec n 0); [lia|]. eexists. split; [reflexivity|]. destruct (all_children_ok false (best_configs n data) (mutate_size / n) patience (best_configs n data) 0 []) as ((F & D) & _); [auto|split; [intros m []|constructor]|].
    specialize (D eq_refl). set (kept := all_children _ _ _ _ _ _ _ _ _) in *. assert (E : map h (map fst kept) = map snd kept).
    { rewrite map_map. apply map_ext_in. intros r I. destruct (F r I) as (c & _ & t & _ & S & _). rewrite S, HH. reflexivity. }
    rewrite <- E in D. apply NoDup_rev in D. rewrite <- map_rev in D. revert D. generalize (rev (map fst kept)) as l. induction l as [|a l IH]; intros D; [constructor|]. cbn [map] in D. inversion D as [|? ? D1 D2]; subst. constructor; [|exact (IH D2)].
    apply Forall_forall. intros b I. destruct (eqb a b) eqn:Q; [|reflexivity]. exfalso. apply D1. rewrite (HE a b Q). apply in_map, I.
  Qed.
End Pool.

Lemma pool_size_ok {X} mutate (eqb : X -> X -> bool) hash random allow n_best mutate_size patience pool_size data : 0 < n_best -> mutate_size <= pool_size ->
  exists pool, create_pool mutate eqb hash random allow n_best mutate_size patience pool_size data = Ok pool /\ length pool = pool_size.
Proof.
  intros N L. destruct data as [|d data]; [eexists; split; [reflexivity|]; rewrite map_length, seq_length; reflexivity|].
  destruct (pool_ok mutate eqb hash random allow n_best mutate_size patience pool_size (d :: data)) as (m & E & L2 & _); [discriminate|exact N|]. eexists. split; [exact E|]. rewrite app_length, map_length, seq_length. lia.
Qed.
Lemma pool_zero {X} mutate (eqb : X -> X -> bool) hash random allow mutate_size patience pool_size data : data <> [] -> create_pool mutate eqb hash random allow 0 mutate_size patience pool_size data = Err ZeroDivisionError.
Proof. destruct data; [contradiction|reflexivity]. Qed.
Lemma pool_repeats : exists (mutate : nat -> nat -> res nat) hash random pool, create_pool mutate Nat.eqb hash random false 1 2 5 2 [(0, 1%Z)] = Ok pool /\ pool = [7; 7].
Proof. exists (fun _ _ => Ok 7), (fun t _ => Z.of_nat t), (fun i => i + 20), [7; 7]. split; reflexivity. Qed.
Lemma pool_rejects : exists (mutate : nat -> nat -> res nat) hash random pool, (forall t t' x m, mutate t x = Ok m -> mutate t' x = Ok m -> t = t') /\ (forall t x, exists m, mutate t x = Ok m /\ m <> x) /\
  create_pool mutate Nat.eqb hash random false 1 4 5 4 [(0, 1%Z)] = Ok pool /\ pool = [1; random 0; random 1; random 2].
Proof.
  exists (fun t x => Ok (x + S t)), (fun _ _ => 0%Z), (fun i => i + 20), [1; 20; 21; 22]. split; [|split; [|split; reflexivity]].
  - intros t t' x m H H'. assert (x + S t = x + S t') by congruence. lia.
  - intros t x. eexists. split; [reflexivity|]. lia.
Qed.

(** ** _propose_location *)
Lemma insert_fst v i l w : In w (map fst (insert_value v i l)) <-> w = v \/ In w (map fst l).
Proof.
  induction l as [|(u, j) l IH]; cbn [insert_value map fst In]; [intuition|]. destruct (Z.ltb v u); [cbn [map fst In]; intuition|]. destruct (Z.eqb_spec v u) as [->|N]; cbn [map fst In]; [intuition|]. rewrite IH. intuition.
Qed.
Lemma insert_sorted v i l : StronglySorted Z.lt (map fst l) -> StronglySorted Z.lt (map fst (insert_value v i l)).
Proof.
  induction l as [|(u, j) l IH]; intros S; [repeat constructor|]. cbn [insert_value]. cbn [map fst] in S. inversion S as [|? ? S1 S2]; subst. destruct (Z.ltb_spec v u) as [L|L].
  - cbn [map fst]. constructor; [exact S|]. constructor; [exact L|]. eapply Forall_impl; [|exact S2]. intros a. cbn. lia.
  - destruct (Z.eqb_spec v u) as [->|N]; [exact S|]. cbn [map fst]. constructor; [exact (IH S1)|]. apply Forall_forall. intros w I. apply insert_fst in I. destruct I as [->|I]; [lia|]. rewrite Forall_forall in S2. exact (S2 w I).
Qed.
Lemma unique_sorted : forall eis i, StronglySorted Z.lt (map fst (unique i eis)).
Proof. induction eis as [|v eis IH]; intros i; [constructor|]. apply insert_sorted, IH. Qed.
Lemma unique_fst : forall eis i w, In w (map fst (unique i eis)) <-> In w eis.
Proof. induction eis as [|v eis IH]; intros i w; [reflexivity|]. cbn [unique]. rewrite insert_fst, IH. cbn [In]. intuition. Qed.
Lemma insert_in v i l x : In x (insert_value v i l) -> x = (v, i) \/ In x l.
Proof. induction l as [|(u, j) l IH]; cbn [insert_value In]; [intuition|]. destruct (Z.ltb v u); [cbn [In]; intuition|]. destruct (Z.eqb v u); cbn [In]; intuition. Qed.
Lemma unique_index : forall eis i v j, In (v, j) (unique i eis) -> i <= j < i + length eis /\ nth (j - i) eis 0%Z = v.
Proof.
  induction eis as [|w eis IH]; intros i v j I; [destruct I|]. cbn [unique] in I. apply insert_in in I. destruct I as [E|I].
  - injection E as -> ->. cbn [List.length]. split; [lia|]. rewrite Nat.sub_diag. reflexivity.
  - destruct (IH _ _ _ I) as (L & E). cbn [List.length]. split; [lia|]. replace (j - i) with (S (j - S i)) by lia. exact E.
Qed.
Lemma sorted_lt_NoDup l : StronglySorted Z.lt l -> NoDup l.
Proof. induction 1 as [|a l S IH F]; constructor; [|exact IH]. intros I. rewrite Forall_forall in F. specialize (F a I). lia. Qed.
Lemma unique_length eis : length (unique 0 eis) = different eis.
Proof.
  rewrite <- (map_length fst). apply Permutation_length, NoDup_Permutation; [apply sorted_lt_NoDup, unique_sorted|apply NoDup_nodup|]. intros w. rewrite unique_fst, nodup_In. reflexivity.
Qed.

Lemma nth_fst (l : list (Z * nat)) j : nth j (map fst l) 0%Z = fst (nth j l (0%Z, 0)).
Proof. exact (map_nth fst l (0%Z, 0) j). Qed.
Section Propose.
  Variables (argpartition topk : list Z -> nat -> list nat).
  Hypothesis AP : partitions argpartition.
  Lemma nodup_map_nth (l : list (Z * nat)) js : NoDup (map fst l) -> NoDup js -> (forall j, In j js -> j < length l) -> NoDup (map (fun j => fst (nth j l (0%Z, 0))) js).
  Proof.
    intros D. induction js as [|j js IH]; intros DJ B; [constructor|]. inversion DJ as [|? ? D1 D2]; subst. cbn [map]. constructor; [|apply IH; auto; intros k K; apply B; right; exact K].
    intros I. apply in_map_iff in I. destruct I as (k & E & K). apply D1. assert (j = k); [|subst; exact K].
    apply (proj1 (NoDup_nth (map fst l) 0%Z) D); [rewrite map_length; apply B; left; reflexivity|rewrite map_length; apply B; right; exact K|]. rewrite !nth_fst. symmetry. exact E.
  Qed.
  Lemma propose_core eis k : k < length (unique 0 eis) -> let is := map (fun j => snd (nth j (unique 0 eis) (0%Z, 0))) (skipn k (argpartition (map fst (unique 0 eis)) k)) in
    length is = length (unique 0 eis) - k /\ (forall i, In i is -> i < length eis) /\ NoDup (map (fun i => nth i eis 0%Z) is) /\
    forall i j, In i is -> j < length eis -> ~ In (nth j eis 0%Z) (map (fun i => nth i eis 0%Z) is) -> (nth j eis 0 < nth i eis 0)%Z.
  Proof.
    intros K is. set (u := unique 0 eis) in *. destruct (AP (map fst u) k) as (P & O); [rewrite map_length; exact K|]. rewrite map_length in P.
    assert (B : forall j, In j (argpartition (map fst u) k) -> j < length u) by (intros j I; apply (Permutation_in _ P) in I; apply in_seq in I; lia).
    assert (SB : forall j, In j (skipn k (argpartition (map fst u) k)) -> j < length u) by (intros j I; apply B; rewrite <- (firstn_skipn k); apply in_or_app; right; exact I).
    assert (V : forall j, j < length u -> snd (nth j u (0%Z, 0)) < length eis /\ nth (snd (nth j u (0%Z, 0))) eis 0%Z = fst (nth j u (0%Z, 0))).
    { intros j L. assert (I : In (nth j u (0%Z, 0)) u) by (apply nth_In; exact L). destruct (nth j u (0%Z, 0)) as (v, x). destruct (unique_index eis 0 v x I) as (L2 & E). rewrite Nat.sub_0_r in E. cbn [fst snd]. split; [lia|exact E]. }
    assert (M : map (fun i => nth i eis 0%Z) is = map (fun j => fst (nth j u (0%Z, 0))) (skipn k (argpartition (map fst u) k))) by (unfold is; rewrite map_map; apply map_ext_in; intros j I; apply V, SB, I).
    split; [unfold is; rewrite map_length, skipn_length, (Permutation_length P), seq_length; reflexivity|]. split; [|split].
    - intros i I. apply in_map_iff in I. destruct I as (j & <- & I). apply V, SB, I.
    - rewrite M. apply nodup_map_nth; [apply sorted_lt_NoDup, unique_sorted| |exact SB]. assert (D : NoDup (argpartition (map fst u) k)) by (apply (Permutation_NoDup (Permutation_sym P)), seq_NoDup). rewrite <- (firstn_skipn k) in D. revert D. generalize (firstn k (argpartition (map fst u) k)) as a. induction a as [|x a IH]; intros D; [exact D|]. inversion D; auto.
    - intros i j I J NI. apply in_map_iff in I. destruct I as (ji & <- & I). rewrite (proj2 (V ji (SB ji I))). assert (JU : In (nth j eis 0%Z) (map fst u)) by (apply unique_fst, nth_In, J). apply In_nth with (d := 0%Z) in JU. destruct JU as (q & Q1 & Q2). rewrite map_length in Q1.
      assert (QP : In q (argpartition (map fst u) k)) by (apply (Permutation_in _ (Permutation_sym P)), in_seq; lia). rewrite <- (firstn_skipn k) in QP. apply in_app_or in QP. rewrite <- Q2, nth_fst.
      assert (NE : fst (nth q u (0%Z, 0)) <> fst (nth ji u (0%Z, 0))).
      { intros E. apply NI. rewrite M. apply in_map_iff. exists ji. split; [|exact I]. rewrite <- E, <- Q2, nth_fst. reflexivity. }
      destruct QP as [QP|QP].
      + specialize (O q ji QP I). rewrite !nth_fst in O. lia.
      + exfalso. apply NI. rewrite M. apply in_map_iff. exists q. split; [|exact QP]. rewrite <- Q2, nth_fst. reflexivity.
  Qed.
  Lemma propose_best eis n : 0 < n -> n <= different eis -> exists is, propose_location argpartition topk eis n = Ok is /\ length is = n /\ (forall i, In i is -> i < length eis) /\ NoDup (map (fun i => nth i eis 0%Z) is) /\
    forall i j, In i is -> j < length eis -> ~ In (nth j eis 0%Z) (map (fun i => nth i eis 0%Z) is) -> (nth j eis 0 < nth i eis 0)%Z.
  Proof.
    intros N L. rewrite <- unique_length in L. unfold propose_location. destruct (Nat.eqb_spec n 0); [lia|]. destruct (Nat.leb_spec n (length (unique 0 eis))); [|lia]. eexists. split; [reflexivity|].
    destruct (propose_core eis (length (unique 0 eis) - n)) as (H1 & H2); [lia|]. split; [rewrite H1; lia|exact H2].
  Qed.
  Lemma propose_zero eis : eis <> [] -> exists is, propose_location argpartition topk eis 0 = Ok is /\ length is = different eis.
  Proof.
    intros N. assert (L : 0 < length (unique 0 eis)).
    { destruct eis as [|v eis]; [contradiction|]. assert (I : In v (map fst (unique 0 (v :: eis)))) by (apply unique_fst; left; reflexivity). destruct (unique 0 (v :: eis)); [destruct I|cbn [List.length]; lia]. }
    unfold propose_location. cbn [Nat.eqb]. destruct (Nat.ltb_spec 0 (length (unique 0 eis))); [|lia]. eexists. split; [reflexivity|]. destruct (propose_core eis 0 L) as (H1 & _). rewrite H1, Nat.sub_0_r. apply unique_length.
  Qed.
End Propose.
Lemma different_le eis : different eis <= length eis.
Proof. unfold different. induction eis as [|v eis IH]; [reflexivity|]. cbn [nodup]. destruct (in_dec Z.eq_dec v eis); cbn [List.length]; lia. Qed.
Lemma propose_few argpartition topk eis n : selects topk -> different eis < n -> n <= length eis -> exists is, propose_location argpartition topk eis n = Ok is /\ greatest eis n is.
Proof.
  intros T L H. rewrite <- unique_length in L. unfold propose_location. destruct (Nat.eqb_spec n 0); [lia|]. destruct (Nat.leb_spec n (length (unique 0 eis))); [lia|]. destruct (Nat.leb_spec n (length eis)); [|lia]. eexists. split; [reflexivity|]. exact (T eis n H).
Qed.
Lemma propose_more argpartition topk eis n : length eis < n -> propose_location argpartition topk eis n = Err RuntimeError.
Proof.
  intros L. pose proof (different_le eis) as D. rewrite <- unique_length in D. unfold propose_location. destruct (Nat.eqb_spec n 0); [lia|]. destruct (Nat.leb_spec n (length (unique 0 eis))); [lia|]. destruct (Nat.leb_spec n (length eis)); [lia|reflexivity].
Qed.
Lemma different_pos eis : eis <> [] -> 0 < different eis.
Proof. destruct eis as [|v eis]; [contradiction|]. intros _. unfold different. assert (I : In v (nodup Z.eq_dec (v :: eis))) by (apply nodup_In; left; reflexivity). destruct (nodup Z.eq_dec (v :: eis)); [destruct I|cbn [List.length]; lia]. Qed.
Lemma sample_one {X} argpartition topk (value : X -> Z) pool : partitions argpartition -> pool <> [] -> exists x, sample_batch argpartition topk value (Ok pool) 1 = Ok [x] /\ In x pool /\ forall y, In y pool -> (value y <= value x)%Z.
Proof.
  intros P N. destruct (propose_best argpartition topk P (map value pool) 1) as (is & E & L & B & _ & O); [lia|apply different_pos; intros E; destruct pool; [contradiction|discriminate]|].
  destruct is as [|i [|? ?]]; [discriminate| |discriminate]. specialize (B i (or_introl eq_refl)). rewrite map_length in *. destruct (nth_error pool i) as [x|] eqn:NX; [|apply nth_error_None in NX; lia].
  exists x. unfold sample_batch. cbn [bind]. rewrite E. cbn [bind flat_map]. rewrite NX. split; [reflexivity|]. split; [exact (nth_error_In _ _ NX)|]. intros y I. apply In_nth_error in I. destruct I as (j & J).
  assert (VI : nth i (map value pool) 0%Z = value x) by (apply nth_error_nth, map_nth_error, NX). assert (VJ : nth j (map value pool) 0%Z = value y) by (apply nth_error_nth, map_nth_error, J).
  assert (JL : j < length pool) by (apply nth_error_Some; congruence).
  destruct (Z.eq_dec (value y) (value x)) as [->|NE]; [lia|]. specialize (O i j (or_introl eq_refl) JL). rewrite VI, VJ in O. cbn [map In] in O. rewrite VI in O. apply Z.lt_le_incl, O. intros [Q|[]]. congruence.
Qed.
