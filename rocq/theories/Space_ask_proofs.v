(** Identifiers, grid search, and what search spaces are made of. *)
From Verif Require Import Space_spec Space_proofs Space_more_proofs Space_ops_proofs Space_eq_proofs Space_mut_proofs Param_proofs Param_int_proofs Param_cat_proofs Param_more_proofs Dom_proofs Py_proofs Enc_proofs.
From Coq Require Import Lqa Permutation Qabs.
From Coq Require Decimal DecimalString DecimalNat.
Open Scope nat_scope.
Local Notation length := List.length.

Lemma str_nat_inj m n : py_str_nat m = py_str_nat n -> m = n.
Proof.
  unfold py_str_nat. intros E. apply (f_equal DecimalString.NilZero.uint_of_string) in E.
  assert (X : forall k, Nat.to_uint k <> Decimal.Nil).
  { intros k H. apply (f_equal Nat.of_uint) in H as H2. rewrite DecimalNat.Unsigned.of_to in H2. cbn in H2. subst k. discriminate. }
  rewrite !DecimalString.NilZero.usu in E by apply X. injection E as E.
  apply (f_equal Nat.of_uint) in E. rewrite !DecimalNat.Unsigned.of_to in E. exact E.
Qed.
Lemma asked_nth {C} (ask : nat -> sampled C -> Prop) l : asked ask l -> forall i c, nth_error l i = Some c -> ask i c.
Proof.
  induction 1 as [|l c H IH A]; intros i d N; [destruct i; discriminate|].
  destruct (Nat.lt_ge_cases i (length l)) as [L|L].
  - rewrite nth_error_app1 in N by exact L. auto.
  - rewrite nth_error_app2 in N by exact L. destruct (i - length l) as [|j] eqn:E; [|destruct j; discriminate].
    injection N as <-. replace i with (length l) by lia. exact A.
Qed.
Lemma asked_ids {C} (ask : nat -> sampled C -> Prop) (f : nat -> nat) l : (forall m n, f m = f n -> m = n) ->
  (forall n c, ask n c -> sc_id c = py_str_nat (f n)) -> asked ask l -> NoDup (map sc_id l).
Proof.
  intros F H A. apply NoDup_nth_error. intros i j L E. rewrite !nth_error_map in E. rewrite map_length in L.
  destruct (nth_error l i) as [c|] eqn:NI; [|apply nth_error_None in NI; lia]. cbn in E.
  destruct (nth_error l j) as [d|] eqn:NJ; [|discriminate]. cbn in E. injection E as E.
  rewrite (H i c (asked_nth ask l A i c NI)), (H j d (asked_nth ask l A j d NJ)) in E. apply F, str_nat_inj, E.
Qed.

(** Grid search with a seed. *)
Lemma grid_asked {C} (configs : list C) shuffled l : Permutation shuffled (seq 0 (length configs)) ->
  asked (fun n c => grid_ask configs shuffled n = Ok c) l ->
  length l <= length configs /\ map (fun c => Some (sc_config c)) l = map (nth_error configs) (firstn (length l) shuffled).
Proof.
  intros P. pose proof (Permutation_length P) as LP. rewrite seq_length in LP.
  induction 1 as [|l c H (L & E) A]; [cbn; split; [lia|reflexivity]|].
  unfold grid_ask in A. destruct (Nat.ltb (length l) (length configs)) eqn:B; [|discriminate]. apply Nat.ltb_lt in B.
  destruct (nth_error shuffled (length l)) as [i|] eqn:N; [|discriminate]. destruct (nth_error configs i) as [x|] eqn:X; [|discriminate].
  injection A as <-. rewrite app_length. cbn [length]. split; [lia|].
  rewrite map_app, E. cbn [map sc_config]. replace (length l + 1) with (S (length l)) by lia.
  assert (FS : firstn (S (length l)) shuffled = firstn (length l) shuffled ++ [i]).
  { clear -N. revert shuffled N. induction (length l) as [|n IH]; intros [|a s] N; cbn in *; try discriminate; [injection N as <-; reflexivity|].
    rewrite (IH s N). reflexivity. }
  rewrite FS, map_app. cbn. rewrite X. reflexivity.
Qed.
Lemma nth_all {C} (l : list C) : map (nth_error l) (seq 0 (length l)) = map Some l.
Proof.
  induction l as [|x l IH]; [reflexivity|]. cbn [length seq map nth_error]. f_equal. rewrite <- seq_shift, map_map. exact IH.
Qed.
Lemma some_perm {C} (l m : list C) : Permutation (map Some l) (map Some m) -> Permutation l m.
Proof.
  intros P. apply Permutation_map_inv in P. destruct P as (l' & E & P).
  assert (l = l') as ->; [|apply Permutation_sym; exact P].
  clear P. revert l' E. induction l as [|x l IH]; intros [|y l'] E; try discriminate; [reflexivity|]. injection E as -> E. f_equal. auto.
Qed.
Lemma grid_all {C} (configs : list C) shuffled l : Permutation shuffled (seq 0 (length configs)) ->
  asked (fun n c => grid_ask configs shuffled n = Ok c) l -> length l = length configs -> Permutation (map sc_config l) configs.
Proof.
  intros P A L. destruct (grid_asked configs shuffled l P A) as [_ E]. pose proof (Permutation_length P) as LP. rewrite seq_length in LP.
  rewrite L, <- LP, firstn_all in E. apply some_perm. rewrite map_map, E, <- (nth_all configs). apply Permutation_map. exact P.
Qed.
Lemma grid_next {C} (configs : list C) shuffled n : Permutation shuffled (seq 0 (length configs)) ->
  if Nat.ltb n (length configs) then exists c, grid_ask configs shuffled n = Ok c else grid_ask configs shuffled n = Err ValueError.
Proof.
  intros P. unfold grid_ask. destruct (Nat.ltb n (length configs)) eqn:B; [|reflexivity]. apply Nat.ltb_lt in B.
  pose proof (Permutation_length P) as LP. rewrite seq_length in LP.
  destruct (nth_some shuffled n ltac:(lia)) as [i N]. rewrite N.
  assert (I : In i (seq 0 (length configs))) by (eapply Permutation_in; [exact P|eapply nth_error_In; exact N]). apply in_seq in I.
  destruct (nth_some configs i ltac:(lia)) as [c ->]. eauto.
Qed.

(** ** The constructor and other methods *)
Section S.
  Variables lnf expf : Q -> Q.
  Notation A := (Qar lnf expf).
  Notation T := (option Q).
  Notation preach := (preach lnf expf).
  Notation wf := (wf lnf expf).
  Notation kept := (kept lnf expf).

  Lemma ss_perm (l l' : space T) : NoDup (map fst l) -> Permutation l l' -> search_space l = search_space l'.
  Proof. intros N P. unfold search_space. rewrite (sort_unique l l' N P). reflexivity. Qed.
  Lemma filter_perm {B} (f : B -> bool) l l' : Permutation l l' -> Permutation (filter f l) (filter f l').
  Proof.
    induction 1 as [|x l l' _ IH|x y l|l m n _ IH1 _ IH2]; cbn; auto.
    - destruct (f x); auto.
    - destruct (f x), (f y); auto. apply perm_swap.
    - eapply perm_trans; eauto.
  Qed.
  Lemma ss_total (l : space T) : search_space l = (if Nat.ltb 1 (length (filter (fun kv => p_fid (snd kv)) l)) then Err ValueError else Ok (sort_names l)).
  Proof.
    unfold search_space. pose proof (Permutation_length (filter_perm (fun kv => p_fid (snd kv)) _ _ (sort_perm l))) as L.
    rewrite L. unfold s_fidelities. destruct (filter _ (sort_names l)) as [|a [|b t]]; reflexivity.
  Qed.
  Lemma fidelity_iff (s : space T) k : wf s -> s_fidelity s = Some k <-> exists p, In (k, p) s /\ p_fid p = true.
  Proof.
    intros (O & _ & F). unfold s_fidelity, s_fidelities in *. split.
    - intros H. destruct (filter (fun kv => p_fid (snd kv)) s) as [|(k', p) t] eqn:E; [discriminate|]. injection H as ->.
      assert (I : In (k, p) (filter (fun kv => p_fid (snd kv)) s)) by (rewrite E; left; reflexivity). apply filter_In in I. exists p. exact I.
    - intros (p & I & X). assert (J : In (k, p) (filter (fun kv => p_fid (snd kv)) s)) by (apply filter_In; auto).
      destruct (filter (fun kv => p_fid (snd kv)) s) as [|(k', p') [|b t]]; [destruct J| |cbn in F; lia]. destruct J as [[= -> _]|[]]. reflexivity.
  Qed.
  Definition constants (s : space T) : space T := filter (fun kv => match snd kv with PK _ => true | _ => false end) s.
  Lemma parts_perm (s : space T) : Permutation s (s_numerical s ++ s_categoricals s ++ constants s ++ filter (fun kv => p_fid (snd kv)) s).
  Proof.
    unfold s_numerical, s_categoricals, constants. induction s as [|(k, p) s IH]; [constructor|]. cbn [filter snd].
    destruct p as [p|p|p|p]; cbn [p_fid].
    - destruct (fp_fid p); cbn [negb app]; [|constructor; exact IH]. rewrite !app_assoc. rewrite !app_assoc in IH. apply Permutation_cons_app. exact IH.
    - destruct (ip_fid p); cbn [negb app]; [|constructor; exact IH]. rewrite !app_assoc. rewrite !app_assoc in IH. apply Permutation_cons_app. exact IH.
    - apply Permutation_cons_app. exact IH.
    - rewrite !app_assoc in *. rewrite <- !app_assoc in *. cbn [app]. rewrite app_assoc. rewrite app_assoc in IH. apply Permutation_cons_app. exact IH.
  Qed.

  Lemma max_fidelity_ok s : wf s ->
    match s_fidelity s with
    | None => s_set_to_max_fidelity A s = Err ValueError
    | Some k => exists c p q, s_set_to_max_fidelity A s = Ok c /\ wf c /\ kept s c /\ lookup k s = Some p /\ lookup k c = Some q /\
        (exists x, p_value A q = Some (HN x) /\ match p_def p with DF _ u _ _ _ _ => x = u | DI _ u _ _ _ _ => x = Some (inject_Z u) | _ => False end) /\
        forall k', k' <> k -> lookup k' c = lookup k' s
    end.
  Proof.
    intros W. destruct (s_fidelity s) as [k|] eqn:F; [|unfold s_set_to_max_fidelity; rewrite F; reflexivity].
    destruct (proj1 (fidelity_iff s k W) F) as (p & I & FP). pose proof (In_lookup k s p (wf_nodup _ _ s W) I) as L.
    pose proof (wf_reach _ _ s k p W I) as R.
    assert (X : exists v, legal (p_def p) v /\ match p_def p with DF _ u _ _ _ _ => v = HN u | DI _ u _ _ _ _ => v = HN (Some (inject_Z u)) | _ => False end /\
      s_set_to_max_fidelity A s = bind (p_set A p (Some v)) (fun q => Ok (set_key k q s))).
    { unfold s_set_to_max_fidelity. rewrite F, L. 
      destruct p as [p|p|p|p]; try discriminate FP.
      - destruct R as (a & b & R). pose proof (freach_good A _ _ p R) as G. destruct (good_bounds A _ _ p G) as [Ea Eb].
        exists (HN (fp_upper p)). cbn [p_def legal]. split; [|auto]. rewrite Ea, Eb. pose proof (good_order lnf expf a b p G). split; lra.
      - destruct R as (l & u & R). pose proof (ireach_good lnf expf _ _ p R) as G. destruct G as (El & Eu & LU & _).
        exists (HN (Some (inject_Z (ip_upper p)))). cbn [p_def legal]. split; [|auto]. exists (ip_upper p). split; [reflexivity|]. lia. }
    destruct X as (v & LG & V & ->). destruct (set_ok lnf expf p v R LG) as (q & S & RQ & EQ & VQ). rewrite S. cbn [bind].
    assert (K : kept s (set_key k q s)) by (apply (kept_set lnf expf s s k p q (kept_refl lnf expf s W) (wf_nodup _ _ s W) I RQ EQ)).
    exists (set_key k q s), p, q. split; [reflexivity|]. split; [apply (kept_wf lnf expf s _ W K)|]. split; [exact K|]. split; [exact L|].
    split; [rewrite lookup_set_key, String.eqb_refl; reflexivity|]. split.
    - destruct (p_def p); try contradiction; subst v; eauto.
    - intros k' N. rewrite lookup_set_key. destruct (String.eqb_spec k' k); [contradiction|reflexivity].
  Qed.

  (** Setting values from a dict: every parameter that is named gets the value, constants apart. *)
  Lemma set_from_dict_ok s d conf oc : wf s -> (forall k v, lookup k d = Some v -> exists x, v = Some x /\
      (forall p, lookup k s = Some p -> legal (p_def p) x)) -> oc = false ->
    exists c, s_set_from_dict A s d false true conf false false oc = Ok c /\ wf c /\ kept s c /\
      paired (fun k p q => p_value A q = match lookup k d with Some v => v | None => p_value A p end) s c.
  Proof.
    intros W H ->. unfold s_set_from_dict. cbn [negb andb].
    match goal with |- exists r, each ?g s = _ /\ _ => set (f := g) end.
    assert (ST : forall k p, In (k, p) s -> exists q, f k p = Ok q /\ (preach q /\ p_def q = p_def p) /\
      p_value A q = match lookup k d with Some v => v | None => p_value A p end).
    { intros k p I. pose proof (wf_reach _ _ s k p W I) as R. unfold f. destruct (lookup k d) as [v|] eqn:L; [|eauto 10].
      destruct (H k v L) as (x & -> & LG). specialize (LG p (In_lookup k s p (wf_nodup _ _ s W) I)).
      destruct p as [p|p|p|p]; cbn [bind].
      1-3: match goal with |- context [p_set A ?p _] => destruct (set_ok lnf expf p x R LG) as (q & S & RQ & EQ & VQ); exists q; auto end.
      exists (PK p). split; [reflexivity|]. split; [auto|]. cbn [p_def legal] in LG. destruct x as [|x]; [contradiction|]. subst x. reflexivity. }
    destruct (each_total f s) as [c C]; [intros k p I; destruct (ST k p I) as (q & X & _); eauto|]. exists c. split; [exact C|].
    apply each_iff in C.
    assert (X : paired (fun k p q => (preach q /\ p_def q = p_def p) /\ p_value A q = match lookup k d with Some v => v | None => p_value A p end) s c).
    { eapply paired_impl; [exact C|]. intros k p q I _ F. destruct (ST k p I) as (q' & F' & X). cbv beta in F. rewrite F' in F. injection F as <-. exact X. }
    assert (K : kept s c) by (eapply paired_impl; [exact X|]; cbn; tauto).
    split; [apply (kept_wf lnf expf s c W K)|]. split; [exact K|]. eapply paired_impl; [exact X|]. cbn. tauto.
  Qed.
End S.
