From Verif Require Import Py.

Fixpoint pyval_ind' (P : pyval -> Prop)
  (HN : P VNone) (HB : forall b, P (VBool b)) (HI : forall z, P (VInt z))
  (HF : forall f, P (VFloat f)) (HS : forall s, P (VStr s))
  (HL : forall l, Forall P l -> P (VList l))
  (HT : forall l, Forall P l -> P (VTuple l))
  (HD : forall d, Forall (fun kv => P (snd kv)) d -> P (VDict d))
  (HO : forall n, P (VObj n)) (v : pyval) {struct v} : P v :=
  let rec := pyval_ind' P HN HB HI HF HS HL HT HD HO in
  match v with
  | VNone => HN | VBool b => HB b | VInt z => HI z | VFloat f => HF f | VStr s => HS s
  | VList l => HL l ((fix go l : Forall P l :=
      match l with [] => Forall_nil _ | x :: l' => Forall_cons _ (rec x) (go l') end) l)
  | VTuple l => HT l ((fix go l : Forall P l :=
      match l with [] => Forall_nil _ | x :: l' => Forall_cons _ (rec x) (go l') end) l)
  | VDict d => HD d ((fix go d : Forall (fun kv => P (snd kv)) d :=
      match d with [] => Forall_nil _ | x :: d' => Forall_cons x (rec (snd x)) (go d') end) d)
  | VObj n => HO n
  end.

(** Readable forms of the nested fixpoints. *)
Definition dict_sub (d e : dict) : bool :=
  forallb (fun kv => match lookup (fst kv) e with
                     | Some y => py_eqb (snd kv) y | None => false end) d.

Lemma py_eqb_list l m : py_eqb (VList l) (VList m) = list_eqb py_eqb l m.
Proof. revert m; induction l as [|x l IH]; intros [|y m]; simpl; try reflexivity.
  f_equal. apply IH. Qed.
Lemma py_eqb_tuple l m : py_eqb (VTuple l) (VTuple m) = list_eqb py_eqb l m.
Proof. revert m; induction l as [|x l IH]; intros [|y m]; simpl; try reflexivity.
  f_equal. apply IH. Qed.
Lemma py_eqb_dict d e :
  py_eqb (VDict d) (VDict e) = Nat.eqb (List.length d) (List.length e) && dict_sub d e.
Proof.
  simpl. f_equal. unfold dict_sub. induction d as [|[k x] d IH]; simpl; [reflexivity|].
  f_equal. apply IH.
Qed.

Lemma wf_list l : wf_val (VList l) <-> Forall wf_val l.
Proof. simpl. induction l as [|x l IH]; split; intros H.
  - constructor. - exact I.
  - destruct H; constructor; [assumption|apply IH; assumption].
  - inversion H; subst. split; [assumption|apply IH; assumption]. Qed.
Lemma wf_tuple l : wf_val (VTuple l) <-> Forall wf_val l.
Proof. exact (wf_list l). Qed.
Lemma wf_dict d : wf_val (VDict d) <-> NoDup (map fst d) /\ Forall (fun kv => wf_val (snd kv)) d.
Proof.
  simpl. assert (E : (fix go (d0 : list (string * pyval)) : Prop :=
      match d0 with [] => True | (_, x) :: d' => wf_val x /\ go d' end) d
      <-> Forall (fun kv => wf_val (snd kv)) d).
  { induction d as [|[k x] d IH]; split; intros H.
    - constructor. - exact I.
    - destruct H; constructor; [assumption|apply IH; assumption].
    - inversion H; subst. split; [assumption|apply IH; assumption]. }
  tauto.
Qed.
Lemma nf_list l : nan_free (VList l) <-> Forall nan_free l.
Proof. simpl. induction l as [|x l IH]; split; intros H.
  - constructor. - exact I.
  - destruct H; constructor; [assumption|apply IH; assumption].
  - inversion H; subst. split; [assumption|apply IH; assumption]. Qed.
Lemma nf_dict d : nan_free (VDict d) <-> Forall (fun kv => nan_free (snd kv)) d.
Proof.
  simpl. induction d as [|[k x] d IH]; split; intros H.
  - constructor. - exact I.
  - destruct H; constructor; [assumption|apply IH; assumption].
  - inversion H; subst. split; [assumption|apply IH; assumption].
Qed.

Lemma lookup_In {A} k (d : list (string * A)) v : lookup k d = Some v -> In (k, v) d.
Proof.
  induction d as [|[k' v'] d IH]; simpl; [discriminate|].
  destruct (String.eqb_spec k k') as [->|]; intros H; [inversion H; auto|auto].
Qed.
Lemma In_lookup {A} k (d : list (string * A)) v :
  NoDup (map fst d) -> In (k, v) d -> lookup k d = Some v.
Proof.
  induction d as [|[k' v'] d IH]; simpl; [tauto|]. intros Hnd [E|Hin].
  - inversion E; subst. rewrite String.eqb_refl. reflexivity.
  - inversion Hnd; subst. destruct (String.eqb_spec k k') as [->|]; [|auto].
    exfalso. apply H1. apply (in_map fst) in Hin. exact Hin.
Qed.
Lemma lookup_None {A} k (d : list (string * A)) : lookup k d = None <-> ~ In k (map fst d).
Proof.
  induction d as [|[k' v'] d IH]; simpl; [tauto|].
  destruct (String.eqb_spec k k') as [->|Hne].
  - split; [discriminate|]. intros H; exfalso; apply H; auto.
  - rewrite IH. split; intros H; [intros [E|E]; [congruence|auto]|auto].
Qed.
Lemma lookup_remove_key {A} k k' (d : list (string * A)) :
  lookup k (remove_key k' d) = if String.eqb k k' then None else lookup k d.
Proof.
  induction d as [|[k2 v2] d IH]; simpl.
  - destruct (String.eqb k k'); reflexivity.
  - destruct (String.eqb_spec k' k2) as [->|Hne].
    + rewrite IH. destruct (String.eqb_spec k k2); reflexivity.
    + simpl. destruct (String.eqb_spec k k2) as [->|]; [|exact IH].
      destruct (String.eqb_spec k2 k'); [congruence|reflexivity].
Qed.
Lemma lookup_set_key {A} k k' (v : A) (d : list (string * A)) :
  lookup k (set_key k' v d) = if String.eqb k k' then Some v else lookup k d.
Proof.
  induction d as [|[k2 v2] d IH]; simpl.
  - destruct (String.eqb k k'); reflexivity.
  - destruct (String.eqb_spec k' k2) as [->|Hne]; simpl.
    + destruct (String.eqb_spec k k2); reflexivity.
    + destruct (String.eqb_spec k k2) as [->|]; [|exact IH].
      destruct (String.eqb_spec k2 k'); [congruence|reflexivity].
Qed.

Lemma fl_of_Z_not_nan z : fl_of_Z z <> FNaN.
Proof. discriminate. Qed.
Lemma fl_eqb_sym x y : fl_eqb x y = fl_eqb y x.
Proof. destruct x, y; simpl; auto. apply Z.eqb_sym. Qed.
Lemma fl_eqb_trans x y z : fl_eqb x y = true -> fl_eqb y z = true -> fl_eqb x z = true.
Proof. destruct x, y, z; simpl; auto; try discriminate. intros; lia. Qed.
Lemma fl_eqb_refl x : x <> FNaN -> fl_eqb x x = true.
Proof. destruct x; simpl; intros; auto; try congruence. apply Z.eqb_refl. Qed.
Lemma fl_eqb_eq x y : fl_eqb x y = true -> x = y.
Proof. destruct x, y; simpl; auto; try discriminate. intros; f_equal; lia. Qed.

Lemma list_eqb_sym {A} (e : A -> A -> bool) l : forall m,
  Forall (fun x => forall y, In y m -> e x y = e y x) l ->
  list_eqb e l m = list_eqb e m l.
Proof.
  induction l as [|x l IH]; intros [|y m] H; simpl; try reflexivity.
  inversion H; subst. rewrite H2 by (left; reflexivity). f_equal. apply IH.
  eapply Forall_impl; [|exact H3]. intros a Ha b Hb. apply Ha. right; exact Hb.
Qed.
Lemma list_eqb_trans {A} (e : A -> A -> bool) l : forall m n,
  Forall (fun x => forall y z, In y m -> In z n -> e x y = true -> e y z = true -> e x z = true) l ->
  list_eqb e l m = true -> list_eqb e m n = true -> list_eqb e l n = true.
Proof.
  induction l as [|x l IH]; intros [|y m] [|z n] H; simpl; auto; try discriminate.
  inversion H; subst. intros H1 H4. apply andb_prop in H1 as [H1 H5].
  apply andb_prop in H4 as [H4 H6]. apply andb_true_intro; split.
  - apply (H2 y z); simpl; auto.
  - apply (IH m n); auto. eapply Forall_impl; [|exact H3].
    intros a Ha b c Hb Hc. apply Ha; right; assumption.
Qed.
Lemma list_eqb_refl {A} (e : A -> A -> bool) l :
  Forall (fun x => e x x = true) l -> list_eqb e l l = true.
Proof. induction 1; simpl; auto. rewrite H; auto. Qed.

Lemma dict_sub_spec d e :
  dict_sub d e = true <->
  (forall k x, In (k, x) d -> exists y, lookup k e = Some y /\ py_eqb x y = true).
Proof.
  unfold dict_sub. rewrite forallb_forall. split.
  - intros H k x Hin. specialize (H (k, x) Hin). simpl in H.
    destruct (lookup k e) as [y|]; [eauto|discriminate].
  - intros H [k x] Hin. simpl. destruct (H k x Hin) as (y & -> & E). exact E.
Qed.

Local Opaque fl_eqb fl_of_Z.

Lemma py_eqb_sym_true v : forall w, wf_val v -> wf_val w -> py_eqb v w = true -> py_eqb w v = true.
Proof.
  induction v as [|b|z|f|s|l IH|l IH|d IH|n] using pyval_ind'; intros w Hv Hw H.
  1-5,9: destruct w; simpl in *;
    solve [ congruence | rewrite fl_eqb_sym; exact H | rewrite String.eqb_sym; exact H
          | rewrite Nat.eqb_sym; exact H | discriminate
          | destruct b; simpl in *; solve [discriminate | rewrite fl_eqb_sym; exact H]
          | destruct b, b0; simpl in *; solve [exact H | rewrite fl_eqb_sym; exact H] ].
  - destruct w; try (simpl in H; discriminate).
    rewrite py_eqb_list in *. apply wf_list in Hv. apply wf_list in Hw.
    revert l0 Hw H. induction l as [|x l IHl]; intros [|y m] Hw H; simpl in *; auto; try discriminate.
    inversion IH; inversion Hv; inversion Hw; subst. apply andb_prop in H as [H1 H2'].
    apply andb_true_intro; split; auto.
  - destruct w; try (simpl in H; discriminate).
    rewrite py_eqb_tuple in *. apply wf_tuple in Hv. apply wf_tuple in Hw.
    revert l0 Hw H. induction l as [|x l IHl]; intros [|y m] Hw H; simpl in *; auto; try discriminate.
    inversion IH; inversion Hv; inversion Hw; subst. apply andb_prop in H as [H1 H2'].
    apply andb_true_intro; split; auto.
  - destruct w; try (simpl in H; discriminate). rename d0 into e.
    rewrite py_eqb_dict in *. apply wf_dict in Hv as [Nd Wd]. apply wf_dict in Hw as [Ne We].
    apply andb_prop in H as [Hlen Hsub]. apply Nat.eqb_eq in Hlen.
    apply andb_true_intro; split; [apply Nat.eqb_eq; auto|].
    rewrite dict_sub_spec in *. intros k y Hin.
    assert (Hinc : incl (map fst e) (map fst d)).
    { apply NoDup_length_incl; [exact Nd|rewrite !map_length; lia|].
      intros k' Hk'. apply in_map_iff in Hk' as ([k2 x2] & <- & Hin2). simpl.
      destruct (Hsub k2 x2 Hin2) as (y2 & E & _). apply lookup_In in E.
      apply (in_map fst) in E. exact E. }
    assert (Hk : In k (map fst d)) by (apply Hinc; apply (in_map fst) in Hin; exact Hin).
    apply in_map_iff in Hk as ([k2 x] & E & Hin2). simpl in E. subst k2.
    exists x. split; [apply In_lookup; assumption|].
    destruct (Hsub k x Hin2) as (y' & E & Heq).
    rewrite (In_lookup _ _ _ Ne Hin) in E. inversion E; subst y'.
    rewrite Forall_forall in IH, Wd, We.
    apply (IH (k, x) Hin2); [apply (Wd (k, x) Hin2)|apply (We (k, y) Hin)|exact Heq].
Qed.

Lemma py_eqb_num v w a : as_num v = Some a ->
  py_eqb v w = match as_num w with Some b => fl_eqb a b | None => false end.
Proof.
  intros E; destruct v; simpl in E; try discriminate E; destruct w; simpl in *; try rewrite E;
    inversion E; subst; reflexivity.
Qed.

Lemma num_trans v u w a : as_num v = Some a ->
  py_eqb v u = true -> py_eqb u w = true -> py_eqb v w = true.
Proof.
  intros E H1 H2. rewrite (py_eqb_num _ u _ E) in H1. rewrite (py_eqb_num _ w _ E).
  destruct (as_num u) as [b|] eqn:Eb; [|discriminate].
  rewrite (py_eqb_num _ _ _ Eb) in H2.
  destruct (as_num w) as [c|] eqn:Ec; [|discriminate].
  eapply fl_eqb_trans; eassumption.
Qed.

Lemma py_eqb_trans v : forall u w,
  wf_val u -> py_eqb v u = true -> py_eqb u w = true -> py_eqb v w = true.
Proof.
  induction v as [|b|z|f|s|l IH|l IH|d IH|n] using pyval_ind'; intros u w Hu H1 H2.
  - destruct u; simpl in *; try discriminate. exact H2.
  - destruct b; eapply num_trans; eauto; reflexivity.
  - eapply num_trans; eauto; reflexivity.
  - eapply num_trans; eauto; reflexivity.
  - destruct u; simpl in *; try discriminate. destruct w; simpl in *; try discriminate.
    apply String.eqb_eq in H1. subst. exact H2.
  - destruct u; try (simpl in H1; discriminate). destruct w; try (simpl in H2; discriminate).
    rewrite py_eqb_list in *. apply wf_list in Hu.
    eapply list_eqb_trans; [|exact H1|exact H2].
    rewrite Forall_forall in *. intros x Hx y z Hy Hz. apply IH; auto.
  - destruct u; try (simpl in H1; discriminate). destruct w; try (simpl in H2; discriminate).
    rewrite py_eqb_tuple in *. apply wf_tuple in Hu.
    eapply list_eqb_trans; [|exact H1|exact H2].
    rewrite Forall_forall in *. intros x Hx y z Hy Hz. apply IH; auto.
  - destruct u; try (simpl in H1; discriminate). destruct w; try (simpl in H2; discriminate).
    rewrite py_eqb_dict in *. apply wf_dict in Hu as [Nu Wu].
    apply andb_prop in H1 as [L1 S1]. apply andb_prop in H2 as [L2 S2].
    apply andb_true_intro; split.
    { apply Nat.eqb_eq in L1. apply Nat.eqb_eq in L2. apply Nat.eqb_eq. lia. }
    rewrite dict_sub_spec in *. intros k x Hin.
    destruct (S1 k x Hin) as (y & E1 & Q1). apply lookup_In in E1.
    destruct (S2 k y E1) as (z & E2 & Q2). exists z. split; [exact E2|].
    rewrite Forall_forall in IH, Wu. apply (IH (k, x) Hin y z); auto.
    apply (Wu (k, y) E1).
  - destruct u; simpl in *; try discriminate. destruct w; simpl in *; try discriminate.
    apply Nat.eqb_eq in H1. subst. exact H2.
Qed.

Lemma py_eqb_refl v : wf_val v -> nan_free v -> py_eqb v v = true.
Proof.
  induction v as [|b|z|f|s|l IH|l IH|d IH|n] using pyval_ind'; intros Hw Hn.
  - reflexivity.
  - destruct b; simpl; apply fl_eqb_refl; apply fl_of_Z_not_nan.
  - simpl. apply fl_eqb_refl; apply fl_of_Z_not_nan.
  - simpl in *. apply fl_eqb_refl; exact Hn.
  - simpl. apply String.eqb_refl.
  - rewrite py_eqb_list. apply wf_list in Hw. apply nf_list in Hn. apply list_eqb_refl.
    rewrite Forall_forall in *. auto.
  - rewrite py_eqb_tuple. apply wf_tuple in Hw. apply nf_list in Hn. apply list_eqb_refl.
    rewrite Forall_forall in *. auto.
  - rewrite py_eqb_dict. apply wf_dict in Hw as [Nd Wd]. apply nf_dict in Hn.
    rewrite Nat.eqb_refl. simpl. rewrite dict_sub_spec. intros k x Hin.
    exists x. split; [apply In_lookup; assumption|].
    rewrite Forall_forall in *. apply (IH (k, x) Hin); [apply (Wd (k, x) Hin)|apply (Hn (k, x) Hin)].
  - simpl. apply Nat.eqb_refl.
Qed.
