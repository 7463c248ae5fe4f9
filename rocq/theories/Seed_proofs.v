(** Sampling only depends on the stored random state. *)
From Verif Require Import Py Trial_model Eval_model Init_model Runtime_model Runtime_spec
  Runtime_proofs Claim_proofs Share_proofs.
From Coq Require Import Permutation.

Section Seed.
Context {R : Type}.
Variable pyfloat : pyval -> res fl.
Variable tid wname : nat -> string.
Variable conf : nat -> worker_settings.
Variable ask : R -> list trial -> res (dict * R).
Notation do_event := (do_event pyfloat tid wname conf ask).
Notation run := (run pyfloat tid wname conf ask).
Notation effect := (effect pyfloat tid wname conf ask).
Notation event_effect := (event_effect pyfloat tid wname conf ask).
Implicit Types s : sys R.
Implicit Types e : event R.

Ltac opn := do 2 (unfold upd in *; rewrite ?Nat.eqb_refl in *; simpl in *); unfold upd in *; rewrite ?Nat.eqb_refl in *.

Lemma synced_ident : forall s k w' i h c,
  same_ident s -> synced_cache s (s_work s k) w' ->
  w_cache w' i = Some h -> nth_error (cells s) i = Some c -> ident (h_trial h) = ident (c_trial c).
Proof.
  intros s k w' i h c SI Y H C. destruct (Y i) as [E|(c' & C' & E)].
  - apply (SI k i h c); congruence.
  - rewrite C in C'. injection C' as <-. rewrite E in H. injection H as <-.
    destruct (sync_handle_trial (w_cache (s_work s k) i) c) as [X|(h' & X1 & X2 & X3)]; [now rewrite X|].
    rewrite X3. eapply SI; eauto.
Qed.

Lemma same_ident_effect : forall s e s', versions_ok s -> same_ident s -> effect s e s' -> same_ident s'.
Proof.
  intros s e s' [_ V2] SI E k0 i0 h0 c0 H0 C0.
  assert (OLD : i0 < List.length (cells s) -> exists c1, nth_error (cells s) i0 = Some c1 /\
                ident (c_trial c0) = ident (c_trial c1)).
  { intro L. destruct (nth_error (cells s) i0) as [c1|] eqn:C1; [|apply nth_error_None in C1; lia].
    destruct (ident_cells _ _ _ _ _ _ _ _ _ _ SI E C1) as (c2 & C2 & Q). exists c1. split; auto. congruence. }
  destruct (Nat.eq_dec k0 (actor e)) as [->|N].
  2:{ rewrite (others_untouched _ _ _ _ _ _ _ _ _ E N) in *.
      destruct OLD as (c1 & C1 & Q); [apply V2 in H0; tauto|]. rewrite Q. eauto. }
  inversion E; subst; simpl in *.
  - destruct e as [k x|k x|k b]; eauto.
  - opn. eapply synced_ident; eauto.
  - opn. apply (synced_ident s k (set_handle (s_work s k) i (sync_handle (w_cache (s_work s k) i) c)) i0); auto.
    apply synced_set; auto.
  - opn. destruct (Nat.eqb i0 (List.length (cells s))) eqn:Q.
    + apply Nat.eqb_eq in Q. subst. rewrite nth_error_app2, Nat.sub_diag in C0 by lia.
      injection H0 as <-. injection C0 as <-. auto.
    + apply Nat.eqb_neq in Q.
      assert (i0 < List.length (cells s)).
      { apply nth_error_lt in C0. rewrite app_length in C0. simpl in C0. lia. }
      rewrite nth_error_app1 in C0 by lia. eapply synced_ident; eauto.
  - opn. destruct (Nat.eqb i0 i) eqn:Q.
    + apply Nat.eqb_eq in Q. subst i0.
      rewrite nth_error_set_nth_eq in C0 by (eapply nth_error_lt; eauto).
      injection H0 as <-. injection C0 as <-. auto.
    + apply Nat.eqb_neq in Q. rewrite nth_error_set_nth_neq in C0 by auto. eauto.
  - opn. destruct (H3 i0) as [X|(-> & c & C & X)].
    + rewrite X in H0. eauto.
    + rewrite X in H0. injection H0 as <-. apply (SI k i h c0); auto.
  - opn. eauto.
  - opn. destruct (Nat.eqb i0 i) eqn:Q; [|eauto].
    apply Nat.eqb_eq in Q. subst i0. injection H0 as <-. simpl.
    rewrite (evaluate_ident _ _ _ _ _ _ _ _ _ H3). eauto.
  - opn. eauto.
  - opn. destruct (Nat.eqb i0 i) eqn:Q.
    + apply Nat.eqb_eq in Q. subst i0.
      rewrite nth_error_set_nth_eq in C0 by (eapply nth_error_lt; eauto).
      injection H0 as <-. injection C0 as <-. auto.
    + apply Nat.eqb_neq in Q. rewrite nth_error_set_nth_neq in C0 by auto. eauto.
  - opn. destruct (H3 i0) as [X|(-> & c & C & X)]; [rewrite X in H0; eauto|].
    rewrite X in H0. injection H0 as <-. apply (SI k i h c0); auto.
  - opn. eauto.
  - opn. eauto.
  - opn. destruct (Nat.eqb i0 (List.length (cells s))) eqn:Q.
    + apply Nat.eqb_eq in Q. subst. rewrite nth_error_app2, Nat.sub_diag in C0 by lia.
      injection H0 as <-. injection C0 as <-. auto.
    + apply Nat.eqb_neq in Q.
      assert (i0 < List.length (cells s)).
      { apply nth_error_lt in C0. rewrite app_length in C0. simpl in C0. lia. }
      rewrite nth_error_app1 in C0 by lia. eapply synced_ident; eauto.
  - opn. eapply synced_ident; eauto.
  - opn. discriminate.
Qed.

Lemma map_set_nth : forall A B (f : A -> B) l i x, map f (set_nth l i x) = set_nth (map f l) i (f x).
Proof. induction l; destruct i; simpl; intros; auto. now rewrite IHl. Qed.
Lemma set_nth_same : forall A (l : list A) i x, nth_error l i = Some x -> set_nth l i x = l.
Proof.
  induction l; destruct i; simpl; intros x H; try discriminate; auto.
  - now injection H as ->.
  - now rewrite IHl.
Qed.

Lemma sync_all_length : forall s ids w w' ts,
  sync_all s w ids = (w', ts) -> (forall i, In i ids -> i < List.length (cells s)) ->
  List.length ts = List.length ids.
Proof.
  induction ids as [|i ids IH]; simpl; intros w w' ts E H.
  - injection E as <- <-. auto.
  - unfold sync_one in E. destruct (nth_error (cells s) i) as [c|] eqn:C.
    + destruct (sync_all s _ ids) as [w2 ts2] eqn:F. injection E as <- <-. simpl. f_equal. eapply IH; eauto.
    + exfalso. apply nth_error_None in C. specialize (H i (or_introl eq_refl)). lia.
Qed.

Lemma listing_length : forall n ord, List.length (listing n ord) = n.
Proof. intros. rewrite (Permutation_length (listing_perm n ord)). apply seq_length. Qed.

Definition is_kill e : bool := match e with KilledSampling _ _ => true | _ => false end.

Lemma sampling_effect : forall s e s', same_ident s -> is_kill e = false -> effect s e s' ->
  configs s' = configs s /\ s_rng s' = s_rng s \/
  exists ts c r', List.length ts = List.length (cells s) /\ ask (s_rng s) ts = Ok (c, r') /\
    configs s' = configs s ++ [c] /\ s_rng s' = r'.
Proof.
  intros s e s' SI K E. unfold configs. inversion E; subst; simpl; auto; try discriminate.
  - right. exists ts, config, r'. split; [|split; [auto|split; [|auto]]].
    + erewrite sync_all_length; eauto.
      * apply listing_length.
      * intros i I. now apply listing_in in I.
    + now rewrite map_app.
  - left. split; auto. rewrite map_set_nth. apply set_nth_same. simpl. rewrite nth_error_map, H1. simpl.
    assert (X := SI k i h c H0 H1). unfold ident in X. congruence.
  - left. split; auto. rewrite map_set_nth. apply set_nth_same. simpl. rewrite nth_error_map, H1. simpl.
    assert (X := SI k i h c H0 H1). unfold ident in X. congruence.
Qed.

(** the first [m] proposals *)
Fixpoint gen (f : R -> nat -> res (dict * R)) (n : nat) (r : R) (m : nat) : list dict * R :=
  match m with
  | O => ([], r)
  | S m' => let '(l, r') := gen f n r m' in
            match f r' (n + m') with Ok (c, r'') => (l ++ [c], r'') | Err _ => (l, r') end
  end.

Lemma gen_run : forall f es s n0 r0 cs0 m,
  (forall r ts, ask r ts = f r (List.length ts)) ->
  versions_ok s -> same_ident s -> forallb (fun e => negb (is_kill e)) es = true ->
  List.length cs0 = n0 ->
  configs s = cs0 ++ fst (gen f n0 r0 m) -> List.length (fst (gen f n0 r0 m)) = m ->
  s_rng s = snd (gen f n0 r0 m) ->
  exists m', configs (run s es) = cs0 ++ fst (gen f n0 r0 m') /\
    List.length (fst (gen f n0 r0 m')) = m' /\ s_rng (run s es) = snd (gen f n0 r0 m').
Proof.
  induction es as [|e es IH]; intros s n0 r0 cs0 m A V SI K L C M G.
  - exists m. auto.
  - simpl in K. apply andb_prop in K. destruct K as [K1 K2].
    assert (E := event_effect s e). set (s' := do_event s e) in *.
    change (run s (e :: es)) with (run s' es).
    assert (V' : versions_ok s') by (eapply versions_ok_effect; eauto).
    assert (SI' : same_ident s') by (apply (same_ident_effect s e s'); auto).
    destruct (sampling_effect s e s') as [[X Y]|(ts & c & r' & X1 & X2 & X3 & X4)]; auto.
    { apply negb_true_iff in K1. auto. }
    + apply (IH s' n0 r0 cs0 m); auto; congruence.
    + apply (IH s' n0 r0 cs0 (S m)); auto.
      * assert (LC : List.length (cells s) = n0 + m).
        { unfold configs in C. apply (f_equal (@List.length _)) in C.
          rewrite map_length, app_length in C. lia. }
        simpl. destruct (gen f n0 r0 m) as [l r1] eqn:GE. simpl in *. subst r1.
        rewrite A, X1, LC in X2. rewrite X2. simpl. rewrite X3, C, app_assoc. reflexivity.
      * assert (LC : List.length (cells s) = n0 + m).
        { unfold configs in C. apply (f_equal (@List.length _)) in C.
          rewrite map_length, app_length in C. lia. }
        simpl. destruct (gen f n0 r0 m) as [l r1] eqn:GE. simpl in *. subst r1.
        rewrite A, X1, LC in X2. rewrite X2. simpl. rewrite app_length. simpl. lia.
      * assert (LC : List.length (cells s) = n0 + m).
        { unfold configs in C. apply (f_equal (@List.length _)) in C.
          rewrite map_length, app_length in C. lia. }
        simpl. destruct (gen f n0 r0 m) as [l r1] eqn:GE. simpl in *. subst r1.
        rewrite A, X1, LC in X2. rewrite X2. simpl. auto.
Qed.

Lemma start_ident : forall cs b errs (r : R) n, same_ident (start cs b errs r n).
Proof. intros cs b errs r n k i h c H. discriminate. Qed.

End Seed.
