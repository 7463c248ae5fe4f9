(** Spaces: what their methods keep. *)
From Verif Require Import Space_spec Space_proofs Param_proofs Param_int_proofs Param_cat_proofs Param_more_proofs Dom_proofs Py_proofs Enc_proofs.
From Coq Require Import Lqa Permutation.
Open Scope nat_scope.
Local Notation length := List.length.

Lemma paired_names {P Q} R (s : list (string * P)) (c : list (string * Q)) : paired R s c -> map fst c = map fst s.
Proof. induction 1 as [|a b s c (E & _) _ IH]; cbn; congruence. Qed.
Lemma paired_impl {P Q} (R R' : string -> P -> Q -> Prop) s c : paired R s c ->
  (forall k p q, In (k, p) s -> In (k, q) c -> R k p q -> R' k p q) -> paired R' s c.
Proof.
  induction 1 as [|(k, p) (k', q) s c (E & H) _ IH]; intros I; constructor.
  - cbn in *. subst k'. split; [reflexivity|]. apply I; auto.
  - apply IH. intros k0 p0 q0 I1 I2. apply I; right; assumption.
Qed.
Lemma paired_in_r {P Q} R (s : list (string * P)) (c : list (string * Q)) k q : paired R s c -> In (k, q) c ->
  exists p, In (k, p) s /\ R k p q.
Proof.
  induction 1 as [|(k1, p1) (k2, q2) s c (E & H) _ IH]; intros I; [destruct I|]. cbn in *. subst k2. destruct I as [[= <- <-]|I].
  - eauto.
  - destruct (IH I) as (p & J & H'). eauto.
Qed.
Lemma paired_in_l {P Q} R (s : list (string * P)) (c : list (string * Q)) k p : paired R s c -> In (k, p) s ->
  exists q, In (k, q) c /\ R k p q.
Proof.
  induction 1 as [|(k1, p1) (k2, q2) s c (E & H) _ IH]; intros I; [destruct I|]. cbn in *. subst k2. destruct I as [[= <- <-]|I].
  - eauto.
  - destruct (IH I) as (q & J & H'). eauto.
Qed.
Lemma paired_trans {P Q U} (R1 : string -> P -> Q -> Prop) (R2 : string -> Q -> U -> Prop) (R3 : string -> P -> U -> Prop) s c d :
  paired R1 s c -> paired R2 c d -> (forall k p q u, R1 k p q -> R2 k q u -> R3 k p u) -> paired R3 s d.
Proof.
  intros H. revert d. induction H as [|(k1, p1) (k2, q2) s c (E & H) _ IH]; intros d H2 I; inversion H2 as [|? (k3, u3) ? ? (E' & H') T]; subst; constructor.
  - cbn in *. subst. split; [reflexivity|]. eapply I; eauto.
  - apply IH; auto.
Qed.
Lemma paired_lookup {P Q} R (s : list (string * P)) (c : list (string * Q)) : paired R s c -> forall k,
  match lookup k s, lookup k c with Some p, Some q => R k p q | None, None => True | _, _ => False end.
Proof.
  induction 1 as [|(k1, p1) (k2, q2) s c (E & H) _ IH]; intros k; cbn in *; [exact I|]. subst k2.
  destruct (String.eqb_spec k k1) as [->|]; [exact H|apply IH].
Qed.
Lemma paired_diag {P} (R : string -> P -> P -> Prop) s : (forall k p, In (k, p) s -> R k p p) -> paired R s s.
Proof.
  induction s as [|(k, p) s IH]; intros H; constructor; [split; [reflexivity|apply H; left; reflexivity]|].
  apply IH. intros k0 p0 I. apply H. right. exact I.
Qed.
Lemma paired_set {P Q} (R : string -> P -> Q -> Prop) s c k p q : paired R s c -> NoDup (map fst s) -> In (k, p) s -> R k p q ->
  paired R s (set_key k q c).
Proof.
  induction 1 as [|(k1, p1) (k2, q2) s c (E & H) T IH]; intros N I HR; [destruct I|]. cbn in E. subst k2. cbn [set_key].
  inversion N as [|? ? N1 N2]; subst. destruct (String.eqb_spec k k1) as [->|NE].
  - constructor; [|exact T]. split; [reflexivity|]. destruct I as [[= <-]|I]; [exact HR|]. destruct N1. apply (in_map fst) in I. exact I.
  - destruct I as [[= <- <-]|I]; [contradiction|]. constructor; [auto|]. apply IH; auto.
Qed.
Lemma paired_dec {P Q} (R R' : string -> P -> Q -> Prop) s c d : paired R s c -> paired R' s d -> map fst c = map fst d.
Proof. intros H1 H2. rewrite (paired_names _ _ _ H1), (paired_names _ _ _ H2). reflexivity. Qed.

Section S.
  Variables lnf expf : Q -> Q.
  Notation A := (Qar lnf expf).
  Notation T := (option Q).

  Lemma mapM_each {P Q} (f : string -> P -> res Q) (s : list (string * P)) c :
    mapM (fun kv => bind (f (fst kv) (snd kv)) (fun q => Ok (fst kv, q))) s = Ok c <-> paired (fun k p q => f k p = Ok q) s c.
  Proof.
    revert c. induction s as [|(k, p) s IH]; intros c; cbn [mapM].
    - split; [intros [= <-]; constructor|]. intros H. inversion H. reflexivity.
    - cbn [fst snd]. split.
      + intros H. apply bind_ok in H. destruct H as (kq & H & H'). apply bind_ok in H. destruct H as (q & F & [= <-]).
        apply bind_ok in H'. destruct H' as (c' & M & [= <-]). constructor; [split; [reflexivity|exact F]|]. apply IH, M.
      + intros H. inversion H as [|? (k', q) ? c' (E & F) T']; subst. cbn in *. subst k'. rewrite F. cbn [bind].
        apply IH in T'. rewrite T'. reflexivity.
  Qed.
  Lemma each_iff (f : string -> param T -> res (param T)) s c : each f s = Ok c <-> paired (fun k p q => f k p = Ok q) s c.
  Proof. apply mapM_each. Qed.
  Lemma each_total (f : string -> param T -> res (param T)) s : (forall k p, In (k, p) s -> exists q, f k p = Ok q) -> exists c, each f s = Ok c.
  Proof.
    unfold each. induction s as [|(k, p) s IH]; intros H; cbn [mapM]; [eauto|]. cbn [fst snd].
    destruct (H k p (or_introl eq_refl)) as [q ->]. cbn [bind]. destruct IH as [c ->]; [intros; apply H; right; assumption|].
    cbn [bind]. eauto.
  Qed.

  (** ** The constructor *)
  Definition wf (s : space T) : Prop :=
    ordered s /\ (forall k p, In (k, p) s -> preach lnf expf p) /\ length (s_fidelities s) <= 1.
  Lemma ss_inv (l s : space T) : search_space l = Ok s -> s = sort_names l /\ length (s_fidelities s) <= 1.
  Proof.
    unfold search_space. destruct (s_fidelities (sort_names l)) as [|a [|b t]] eqn:E; intros H; try discriminate;
      injection H as <-; rewrite E; cbn; split; auto.
  Qed.
  Lemma ss_ok (s : space T) : ordered s -> length (s_fidelities s) <= 1 -> search_space s = Ok s.
  Proof.
    intros O F. unfold search_space. rewrite (ordered_id s O). destruct (s_fidelities s) as [|a [|b t]]; auto. cbn in F. lia.
  Qed.
  Lemma space_wf s : is_space lnf expf s <-> wf s.
  Proof.
    split.
    - intros (l & N & R & S). apply ss_inv in S. destruct S as [-> F]. split; [apply sort_ordered; exact N|]. split; [|exact F].
      intros k p I. apply (R k). eapply Permutation_in; [apply Permutation_sym, sort_perm|exact I].
    - intros (O & R & F). exists s. split; [apply ordered_nodup; exact O|]. split; [exact R|]. apply ss_ok; auto.
  Qed.
  Lemma names_ordered {P Q} (s : list (string * P)) (c : list (string * Q)) : map fst c = map fst s -> ordered s -> ordered c.
  Proof.
    intros E O. revert c E. induction O as [|k v l H O IH]; intros [|(k', v') c] E; try discriminate; [constructor|].
    cbn in E. injection E as -> E. constructor; [|apply IH; exact E]. intros k1 v1 I. apply (in_map fst) in I. cbn in I. rewrite E in I.
    apply in_map_iff in I. destruct I as ((k2, v2) & <- & I). eapply H; eauto.
  Qed.
  Lemma fids_same (s c : space T) : paired (fun _ p q => p_fid q = p_fid p) s c -> s_fidelities c = s_fidelities s.
  Proof.
    unfold s_fidelities. induction 1 as [|(k, p) (k', q) s c (E & H) _ IH]; cbn in *; [reflexivity|]. subst k'. rewrite H.
    destruct (p_fid p); cbn; rewrite IH; reflexivity.
  Qed.
  (** Changing parameters without changing their definitions. *)
  Definition kept (s c : space T) : Prop := paired (fun _ p q => preach lnf expf q /\ p_def q = p_def p) s c.
  Lemma kept_wf s c : wf s -> kept s c -> wf c.
  Proof.
    intros (O & R & F) K. split; [|split].
    - eapply names_ordered; [apply (paired_names _ _ _ K)|exact O].
    - intros k q I. destruct (paired_in_r _ _ _ _ _ K I) as (p & _ & H & _). exact H.
    - rewrite (fids_same s c); [exact F|]. eapply paired_impl; [exact K|]. intros k p q _ _ (_ & E). apply def_fid, E.
  Qed.
  Lemma kept_def s c : kept s c -> s_def c = s_def s.
  Proof.
    unfold s_def. induction 1 as [|(k, p) (k', q) s c (E & _ & H) _ IH]; cbn in *; [reflexivity|]. subst k'. rewrite H, IH. reflexivity.
  Qed.
  Lemma kept_ss s c : wf s -> kept s c -> search_space c = Ok c.
  Proof. intros W K. destruct (kept_wf s c W K) as (O & _ & F). apply ss_ok; auto. Qed.
  Lemma wf_ss s : wf s -> search_space s = Ok s.
  Proof. intros (O & _ & F). apply ss_ok; auto. Qed.
  Lemma wf_nodup s : wf s -> NoDup (map fst s).
  Proof. intros (O & _). apply ordered_nodup, O. Qed.
  Lemma wf_reach s k p : wf s -> In (k, p) s -> preach lnf expf p.
  Proof. intros (_ & R & _). apply R. Qed.
  Lemma each_ss s c f : wf s -> (forall k p q, In (k, p) s -> f k p = Ok q -> preach lnf expf q /\ p_def q = p_def p) ->
    bind (each f s) search_space = Ok c <-> each f s = Ok c.
  Proof.
    intros W H. assert (K : forall d, each f s = Ok d -> kept s d).
    { intros d E. apply each_iff in E. eapply paired_impl; [exact E|]. intros k p q I _ F. apply (H k p q I F). }
    split.
    - intros B. apply bind_ok in B. destruct B as (d & E & S). rewrite (kept_ss s d W (K d E)) in S. congruence.
    - intros E. rewrite E. cbn [bind]. apply (kept_ss s c W (K c E)).
  Qed.

  (** ** Cloning *)
  Lemma s_clone_ok s : wf s -> exists c, s_clone A s = Ok c /\ wf c /\ kept s c /\ hp_values A c = hp_values A s.
  Proof.
    intros W. unfold s_clone.
    assert (H : forall k p q, In (k, p) s -> p_clone A p = Ok q -> preach lnf expf q /\ p_def q = p_def p /\ p_value A q = p_value A p).
    { intros k p q I C. destruct (clone_ok lnf expf p (wf_reach s k p W I)) as (q' & C' & X). rewrite C' in C. injection C as <-. exact X. }
    destruct (each_total (fun _ p => p_clone A p) s) as [c C].
    { intros k p I. destruct (clone_ok lnf expf p (wf_reach s k p W I)) as (q & C & _). eauto. }
    assert (K : paired (fun _ p q => preach lnf expf q /\ p_def q = p_def p /\ p_value A q = p_value A p) s c).
    { eapply paired_impl; [apply each_iff; exact C|]. intros k p q I _ F. exact (H k p q I F). }
    assert (K' : kept s c) by (eapply paired_impl; [exact K|]; cbn; tauto).
    exists c. rewrite C. cbn [bind]. split; [apply (kept_ss s c W K')|]. split; [apply (kept_wf s c W K')|]. split; [exact K'|].
    clear -K. unfold hp_values. induction K as [|(k, p) (k', q) s c (E & _ & _ & V) _ IH]; cbn in *; [reflexivity|]. subst. rewrite V, IH. reflexivity.
  Qed.

  (** ** Sampling *)
  Lemma tries_some {B} (f : nat -> res B) n i b : tries f i n = Some b -> exists j, i <= j /\ j < i + n /\ f j = Ok b.
  Proof.
    revert i. induction n as [|n IH]; intros i; cbn [tries]; [discriminate|]. destruct (f i) as [b'|] eqn:F.
    - intros [= <-]. exists i. split; [lia|]. split; [lia|exact F].
    - intros H. destruct (IH (S i) H) as (j & L1 & L2 & E). exists j. split; [lia|]. split; [lia|exact E].
  Qed.
  Lemma s_sample_inv s ign n draws c : wf s -> s_sample A s ign n draws = Ok c ->
    wf c /\ kept s c /\
    paired (fun _ p q => if p_fid p && ign then p_value A q = p_value A p
                         else exists v, p_value A q = Some v /\ legal (p_def p) v) s c.
  Proof.
    intros W S. unfold s_sample in S.
    set (f := fun name p => if p_fid p && ign then p_clone A p else match tries (fun i => p_sample A p (draws name i)) 0 n with
      | Some q => Ok q | None => Err ValueError end) in S.
    assert (H : forall k p q, In (k, p) s -> f k p = Ok q -> (preach lnf expf q /\ p_def q = p_def p) /\
      if p_fid p && ign then p_value A q = p_value A p else exists v, p_value A q = Some v /\ legal (p_def p) v).
    { intros k p q I. unfold f. pose proof (wf_reach s k p W I) as R. destruct (p_fid p && ign).
      - intros C. destruct (clone_ok lnf expf p R) as (q' & C' & X1 & X2 & X3). rewrite C' in C. injection C as <-. auto.
      - destruct (tries _ 0 n) as [q'|] eqn:TR; [|discriminate]. intros [= <-].
        apply tries_some in TR. destruct TR as (j & _ & _ & F). destruct (sample_inv lnf expf p _ q' R F) as (X1 & X2 & X3). auto. }
    apply (each_ss s c f W) in S; [|intros k p q I F; apply (H k p q I F)].
    apply each_iff in S.
    assert (K : kept s c) by (eapply paired_impl; [exact S|]; intros k p q I _ F; apply (H k p q I F)).
    split; [apply (kept_wf s c W K)|]. split; [exact K|]. eapply paired_impl; [exact S|]. intros k p q I _ F. apply (H k p q I F).
  Qed.
  Lemma s_sample_ok s ign n draws : wf s -> 0 < n ->
    (forall k p, In (k, p) s -> p_fid p && ign = false -> fits p (draws k 0)) -> exists c, s_sample A s ign n draws = Ok c.
  Proof.
    intros W N D. unfold s_sample.
    set (f := fun name p => if p_fid p && ign then p_clone A p else match tries (fun i => p_sample A p (draws name i)) 0 n with
      | Some q => Ok q | None => Err ValueError end).
    destruct (each_total f s) as [c C].
    { intros k p I. unfold f. pose proof (wf_reach s k p W I) as R. destruct (p_fid p && ign) eqn:F.
      - destruct (clone_ok lnf expf p R) as (q & C & _). eauto.
      - destruct n as [|n]; [lia|]. cbn [tries]. destruct (sample_ok lnf expf p _ R (D k p I F)) as [q ->]. eauto. }
    exists c. apply (each_ss s c f W); [|exact C]. intros k p q I. unfold f. pose proof (wf_reach s k p W I) as R. destruct (p_fid p && ign).
    - intros C'. destruct (clone_ok lnf expf p R) as (q' & C'' & X1 & X2 & X3). rewrite C'' in C'. injection C' as <-. auto.
    - destruct (tries _ 0 n) as [q'|] eqn:TR; [|discriminate]. intros [= <-].
      apply tries_some in TR. destruct TR as (j & _ & _ & F). destruct (sample_inv lnf expf p _ q' R F) as (X1 & X2 & X3). auto.
  Qed.

  Lemma legal_after s c : wf s -> kept s c ->
    (forall k q, In (k, q) c -> p_fid q = false -> exists v, p_value A q = Some v) -> legal_space lnf expf c.
  Proof.
    intros W K H k q I F. destruct (H k q I F) as [v V]. exists v. split; [exact V|]. apply (value_legal lnf expf); [|exact V].
    apply (wf_reach c k q (kept_wf s c W K) I).
  Qed.
  Lemma kept_trans s c d : kept s c -> kept c d -> kept s d.
  Proof. intros H1 H2. eapply paired_trans; [exact H1|exact H2|]. intros k p q u (_ & E) (R & E'). split; [exact R|congruence]. Qed.
  Lemma kept_refl s : wf s -> kept s s.
  Proof. intros W. apply paired_diag. intros k p I. split; [apply (wf_reach s k p W I)|reflexivity]. Qed.
  Lemma kept_set s c k p q : kept s c -> NoDup (map fst s) -> In (k, p) s -> preach lnf expf q -> p_def q = p_def p -> kept s (set_key k q c).
  Proof. intros K N I R E. eapply paired_set; eauto. Qed.
End S.
