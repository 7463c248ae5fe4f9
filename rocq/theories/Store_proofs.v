From Verif Require Import Base Store_model Store_spec.

Lemma upd_same {A} (f : nat -> A) k v : upd f k v k = v.
Proof. unfold upd. rewrite Nat.eqb_refl. reflexivity. Qed.
Lemma upd_other {A} (f : nat -> A) k v k' : k' <> k -> upd f k v k' = f k'.
Proof. intros H. unfold upd. destruct (Nat.eqb_spec k' k); congruence. Qed.

Section Proofs.
Context {T : Type}.
Implicit Types (s : world T) (r : reg T) (o : op T).

Lemma latest_app (l : list T) x se dr : latest (mkReg (l ++ [x]) se dr) = Some x.
Proof.
  unfold latest; simpl. rewrite map_app. simpl.
  induction (map Some l) as [|a l' IH]; simpl; [reflexivity|].
  destruct (l' ++ [Some x]) eqn:E; [destruct l'; discriminate|exact IH].
Qed.

Lemma latest_nth r n : length (log r) = S n -> latest r = nth_error (log r) n.
Proof.
  destruct r as [l se dr]; simpl. intros H.
  destruct (exists_last (l := l)) as [l' [x ->]]; [destruct l; discriminate|].
  rewrite latest_app. rewrite app_length in H; simpl in H.
  rewrite nth_error_app2 by lia. replace (n - length l') with 0 by lia. reflexivity.
Qed.

Lemma latest_none r : latest r = None -> log r = [].
Proof.
  destruct r as [l se dr]; simpl. destruct l as [|a l]; [reflexivity|].
  intros H. destruct (exists_last (l := a :: l)) as [l' [x E]]; [discriminate|].
  rewrite E in H. rewrite latest_app in H. discriminate.
Qed.

(** Coupling of one worker's handle with the register. *)
Definition Rw (v fresh : nat) (r : reg T) (w : nat) (oh : option (handle T)) : Prop :=
  match oh, seen r w with
  | None, None => True
  | Some h, Some n =>
      h_version h < fresh /\ 1 <= n <= length (log r) /\
      (n = length (log r) <-> h_version h = v) /\
      (n = length (log r) -> Some (h_current h) = own r w)
  | _, _ => False
  end.

Definition R s r : Prop :=
  match d_version (w_disk s) with
  | None => log r = [] /\ d_data (w_disk s) = None /\
            (forall w, w_h s w = None /\ seen r w = None /\ draft r w = None)
  | Some v => log r <> [] /\ d_data (w_disk s) = latest r /\
              v < d_fresh (w_disk s) /\
              (forall w, Rw v (d_fresh (w_disk s)) r w (w_h s w)) /\
              (forall w, seen r w = None -> draft r w = None)
  end.

Lemma R_init : R (init (T:=T)) reg0.
Proof. unfold R; simpl. repeat split; reflexivity. Qed.

Lemma uptodate_eq r w n : seen r w = Some n -> up_to_date r w = Nat.eqb n (length (log r)).
Proof. unfold up_to_date. intros ->. reflexivity. Qed.

(** Accepting a write re-establishes the coupling. *)
Lemma R_accept (d : disk T) (hs : nat -> option (handle T)) r w x :
  (forall w', w' <> w -> Rw (match d_version d with Some v => v | None => d_fresh d end) (d_fresh d) r w' (hs w')) ->
  (forall w', w' <> w -> seen r w' = None -> draft r w' = None) ->
  (match d_version d with Some v => v < d_fresh d | None => True end) ->
  R (mkWorld (mkDisk (Some (d_fresh d)) (Some x) (S (d_fresh d)))
             (upd hs w (Some (mkHandle x (d_fresh d)))))
    (accept r w x).
Proof.
  intros Ho Hd Hv. unfold R; cbn [w_disk d_version d_data d_fresh w_h].
  split; [simpl; destruct (log r); discriminate|].
  split; [unfold accept; rewrite latest_app; reflexivity|]. split; [lia|]. split.
  - intros w'. destruct (Nat.eq_dec w' w) as [->|Hne].
    + rewrite upd_same. unfold Rw, accept; simpl. rewrite upd_same, app_length; simpl.
      split; [lia|]. split; [lia|]. split; [split; intros; lia|].
      intros _. unfold own; simpl. rewrite upd_same, upd_same.
      rewrite nth_error_app2 by lia. rewrite Nat.sub_diag. reflexivity.
    + rewrite upd_other by exact Hne. specialize (Ho w' Hne).
      unfold Rw in *; simpl. rewrite upd_other by exact Hne.
      destruct (hs w') as [h|], (seen r w') as [n|]; try exact Ho.
      destruct Ho as (H1 & H2 & H3 & H4). rewrite app_length; simpl.
      split; [lia|]. split; [lia|]. split; [split; intros; exfalso; lia|]. intros; lia.
  - intros w' Hw'. destruct (Nat.eq_dec w' w) as [->|Hne].
    + simpl in Hw'. rewrite upd_same in Hw'. discriminate.
    + simpl in *. rewrite upd_other in Hw' by exact Hne. rewrite upd_other by exact Hne. auto.
Qed.

Lemma R_catch_up (d : disk T) (hs : nat -> option (handle T)) r w x v :
  d_version d = Some v -> d_data d = latest r -> latest r = Some x -> v < d_fresh d ->
  (forall w', w' <> w -> Rw v (d_fresh d) r w' (hs w')) ->
  (forall w', w' <> w -> seen r w' = None -> draft r w' = None) ->
  R (mkWorld d (upd hs w (Some (mkHandle x v)))) (catch_up r w).
Proof.
  intros Hv Hdd Hl Hf Ho Hd. unfold R; simpl. rewrite Hv.
  assert (Hne0 : log r <> []) by (intros E; destruct r; simpl in *; subst; discriminate).
  split; [exact Hne0|]. split; [exact Hdd|]. split; [exact Hf|]. split.
  - intros w'. destruct (Nat.eq_dec w' w) as [->|Hne].
    + rewrite upd_same. unfold Rw, catch_up; simpl. rewrite upd_same.
      assert (1 <= length (log r)) by (destruct (log r); simpl; [congruence|lia]).
      split; [lia|]. split; [lia|]. split; [split; intros; reflexivity|].
      intros _. unfold own; simpl. rewrite upd_same, upd_same.
      destruct (length (log r)) as [|n] eqn:E; [lia|].
      rewrite <- Hl. apply latest_nth. exact E.
    + rewrite upd_other by exact Hne. specialize (Ho w' Hne).
      unfold Rw in *; simpl. rewrite upd_other by exact Hne.
      destruct (hs w') as [h|], (seen r w') as [n|]; try exact Ho.
      destruct Ho as (H1 & H2 & H3 & H4).
      split; [lia|]. split; [lia|]. split; [exact H3|]. intros E. rewrite (H4 E).
      unfold own; simpl. rewrite !upd_other by exact Hne. reflexivity.
  - intros w' Hw'. destruct (Nat.eq_dec w' w) as [->|Hne].
    + simpl in Hw'. rewrite upd_same in Hw'. discriminate.
    + simpl in *. rewrite upd_other in Hw' by exact Hne. rewrite upd_other by exact Hne. auto.
Qed.

(** Changing only [w]'s draft while [w] is stale, or handle-independent facts. *)
Lemma R_draft_stale (d : disk T) (hs : nat -> option (handle T)) r w h n v dw :
  d_version d = Some v -> seen r w = Some n -> n <> length (log r) ->
  hs w = Some h ->
  R (mkWorld d hs) r ->
  R (mkWorld d (upd hs w (Some (mkHandle (h_current h) (h_version h)))))
    (mkReg (log r) (seen r) (upd (draft r) w dw)).
Proof.
  intros Hv Hs Hn Hh HR. unfold R in *; simpl in *. rewrite Hv in *.
  destruct HR as (H1 & H2 & H3 & H4 & H5).
  split; [exact H1|]. split; [exact H2|]. split; [exact H3|]. split.
  - intros w'. specialize (H4 w'). destruct (Nat.eq_dec w' w) as [->|Hne].
    + rewrite upd_same. rewrite Hh in H4. unfold Rw in *; simpl. rewrite Hs in *.
      destruct H4 as (A & B & C & D). split; [lia|]. split; [lia|]. split; [exact C|]. intros; lia.
    + rewrite upd_other by exact Hne. unfold Rw in *; simpl.
      destruct (hs w'), (seen r w'); try exact H4.
      destruct H4 as (A & B & C & D). split; [lia|]. split; [lia|]. split; [exact C|].
      intros E; rewrite (D E). unfold own; simpl. rewrite upd_other by exact Hne. reflexivity.
  - intros w' Hw'. destruct (Nat.eq_dec w' w) as [->|Hne]; [congruence|].
    rewrite upd_other by exact Hne. auto.
Qed.

Lemma handle_eta (h : handle T) : mkHandle (h_current h) (h_version h) = h.
Proof. destruct h; reflexivity. Qed.

Lemma put_refines s r w x :
  R s r ->
  forall h, w_h s w = Some h ->
  let '(d, h', q) := vr_put (w_disk s) h x in
  let '(r', y) := spec_put r w (Some x) in
  R (mkWorld d (upd (w_h s) w (Some h'))) r' /\
  match q with Ok _ => OutUnit | Err e => OutErr e end = y.
Proof.
  intros HR h Hh. unfold vr_put, spec_put.
  pose proof HR as HR0. unfold R in HR.
  destruct (d_version (w_disk s)) as [v|] eqn:Hv.
  2:{ destruct HR as (_ & _ & HR). destruct (HR w) as [E _]. congruence. }
  destruct HR as (H1 & H2 & H3 & H4 & H5).
  pose proof (H4 w) as Hw. unfold Rw in Hw. rewrite Hh in Hw.
  destruct (seen r w) as [n|] eqn:Hs; [|contradiction].
  destruct Hw as (A & B & C & D).
  rewrite (uptodate_eq _ _ _ Hs).
  destruct (Nat.eqb_spec (h_version h) v) as [E|E];
  destruct (Nat.eqb_spec n (length (log r))) as [E'|E']; try (exfalso; tauto).
  - simpl. split; [|reflexivity].
    apply (R_accept (w_disk s) (w_h s) r w x).
    + intros w' _. rewrite Hv. apply H4.
    + intros w' _. apply H5.
    + rewrite Hv. exact H3.
  - split; [|reflexivity].
    rewrite <- (handle_eta h).
    apply (R_draft_stale (w_disk s) (w_h s) r w h n v None); try assumption.
Qed.

Lemma own_uptodate r w n : seen r w = Some n -> n = length (log r) -> log r <> [] ->
  draft r w = None -> own r w = latest r.
Proof.
  intros Hs Hn Hl Hd. unfold own. rewrite Hd, Hs. destruct n as [|n].
  - destruct (log r); [congruence|discriminate].
  - symmetry. apply latest_nth. auto.
Qed.

Lemma sync_refines s r w :
  R s r -> disciplined_op r (OSynced w) = true ->
  forall h, w_h s w = Some h ->
  exists x v, vr_sync (w_disk s) h = Ok (mkHandle x v) /\
    seen r w <> None /\ latest r = Some x /\ d_version (w_disk s) = Some v /\
    d_data (w_disk s) = latest r /\ v < d_fresh (w_disk s) /\
    (forall w', Rw v (d_fresh (w_disk s)) r w' (w_h s w')) /\
    (forall w', seen r w' = None -> draft r w' = None).
Proof.
  intros HR Hdis h Hh. unfold vr_sync, R in *.
  destruct (d_version (w_disk s)) as [v|] eqn:Hv.
  2:{ destruct HR as (_ & _ & HR). destruct (HR w) as [E _]. congruence. }
  destruct HR as (H1 & H2 & H3 & H4 & H5).
  pose proof (H4 w) as Hw. unfold Rw in Hw. rewrite Hh in Hw.
  destruct (seen r w) as [n|] eqn:Hs; [|contradiction].
  destruct Hw as (A & B & C & D).
  destruct (latest r) as [x|] eqn:Hl.
  2:{ apply latest_none in Hl. congruence. }
  exists x, v.
  assert (HS : Some n <> None) by discriminate.
  destruct (Nat.eqb_spec (h_version h) v) as [E|E].
  - assert (En : n = length (log r)) by tauto.
    simpl in Hdis. unfold up_to_date in Hdis. rewrite Hs in Hdis.
    destruct (draft r w) eqn:Hd.
    + rewrite En, Nat.eqb_refl in Hdis. discriminate.
    + specialize (D En). rewrite (own_uptodate _ _ _ Hs En H1 Hd), Hl in D.
      split; [|repeat split; auto]. inversion D; subst. rewrite handle_eta. reflexivity.
  - unfold read. rewrite H2. simpl. split; [reflexivity|repeat split; auto].
Qed.

Lemma step_refines s r o :
  R s r -> disciplined_op r o = true ->
  R (fst (step s o)) (fst (spec_step r o)) /\ snd (step s o) = snd (spec_step r o).
Proof.
  intros HR Hdis. destruct o as [w x|w|w|w x|w f|w f|w|w].
  - (* new *) simpl. unfold vr_new. destruct (d_version (w_disk s)) as [v|] eqn:Hv.
    + simpl. pose proof HR as HR'. unfold R in HR'. rewrite Hv in HR'.
      destruct HR' as (H1 & _). destruct (log r) eqn:El; [congruence|].
      destruct s; simpl in *. split; [exact HR|reflexivity].
    + simpl. pose proof HR as HR'. unfold R in HR'. rewrite Hv in HR'.
      destruct HR' as (H1 & H2 & H3). rewrite H1. simpl. split; [|reflexivity].
      apply (R_accept (w_disk s) (w_h s) r w x).
      * intros w' _. destruct (H3 w') as (A & B & C). unfold Rw. rewrite A, B. exact I.
      * intros w' _ _. apply H3.
      * rewrite Hv. exact I.
  - (* load *) simpl. unfold vr_load. pose proof HR as HR'. unfold R in HR'.
    destruct (d_version (w_disk s)) as [v|] eqn:Hv.
    + destruct HR' as (H1 & H2 & H3 & H4 & H5).
      unfold read. rewrite H2. destruct (latest r) as [x|] eqn:Hl.
      * simpl. split; [|reflexivity]. apply (R_catch_up (w_disk s) (w_h s) r w x v); auto.
        congruence.
      * apply latest_none in Hl. congruence.
    + destruct HR' as (H1 & H2 & H3).
      assert (Hl : latest r = None) by (unfold latest; rewrite H1; reflexivity).
      rewrite Hl. simpl. split; [exact HR|reflexivity].
  - (* synced *) simpl. destruct (w_h s w) as [h|] eqn:Hh.
    + destruct (sync_refines s r w HR Hdis h Hh) as (x & v & E & Hs & Hl & Hv & Hd & Hf & HA & HB).
      rewrite E. simpl. destruct (seen r w); [|congruence]. rewrite Hl. simpl.
      split; [|reflexivity]. apply (R_catch_up (w_disk s) (w_h s) r w x v); auto.
    + pose proof HR as HR'. unfold R in HR'.
      assert (Hs : seen r w = None).
      { destruct (d_version (w_disk s)).
        - destruct HR' as (_ & _ & _ & H4 & _). specialize (H4 w). unfold Rw in H4.
          rewrite Hh in H4. destruct (seen r w); [contradiction|reflexivity].
        - apply HR'. }
      rewrite Hs. split; [exact HR|reflexivity].
  - (* put *) simpl. destruct (w_h s w) as [h|] eqn:Hh.
    + pose proof (put_refines s r w x HR h Hh) as P.
      destruct (vr_put (w_disk s) h x) as [[d h'] q].
      destruct (spec_put r w (Some x)) as [r' y]. exact P.
    + pose proof HR as HR'. unfold R in HR'. unfold spec_put.
      assert (Hs : seen r w = None).
      { destruct (d_version (w_disk s)).
        - destruct HR' as (_ & _ & _ & H4 & _). specialize (H4 w). unfold Rw in H4.
          rewrite Hh in H4. destruct (seen r w); [contradiction|reflexivity].
        - apply HR'. }
      rewrite Hs. split; [exact HR|reflexivity].
  - (* acquire *) simpl. destruct (w_h s w) as [h|] eqn:Hh.
    + destruct (sync_refines s r w HR Hdis h Hh) as (x & v & E & Hs & Hl & Hv & Hd & Hf & HA & HB).
      rewrite E. simpl. destruct (seen r w) as [n|]; [|congruence]. rewrite Hl.
      destruct (f x) as [y|].
      * unfold vr_put. rewrite Hv. simpl. rewrite Nat.eqb_refl. simpl. split; [|reflexivity].
        apply (R_accept (w_disk s) (w_h s) r w y).
        -- intros w' _. rewrite Hv. apply HA.
        -- intros w' _. apply HB.
        -- rewrite Hv. exact Hf.
      * simpl. split; [|reflexivity]. apply (R_catch_up (w_disk s) (w_h s) r w x v); auto.
    + pose proof HR as HR'. unfold R in HR'.
      assert (Hs : seen r w = None).
      { destruct (d_version (w_disk s)).
        - destruct HR' as (_ & _ & _ & H4 & _). specialize (H4 w). unfold Rw in H4.
          rewrite Hh in H4. destruct (seen r w); [contradiction|reflexivity].
        - apply HR'. }
      rewrite Hs. split; [exact HR|reflexivity].
  - (* mutate *) simpl. destruct (w_h s w) as [h|] eqn:Hh.
    + pose proof HR as HR'. unfold R in HR'.
      destruct (d_version (w_disk s)) as [v|] eqn:Hv.
      2:{ destruct HR' as (_ & _ & HR'). destruct (HR' w) as [E _]. congruence. }
      destruct HR' as (H1 & H2 & H3 & H4 & H5).
      pose proof (H4 w) as Hw. unfold Rw in Hw. rewrite Hh in Hw.
      destruct (seen r w) as [n|] eqn:Hs; [|contradiction].
      destruct Hw as (A & B & C & D). simpl. split; [|reflexivity].
      unfold R; simpl. rewrite Hv.
      split; [exact H1|]. split; [exact H2|]. split; [exact H3|]. split.
      * intros w'. destruct (Nat.eq_dec w' w) as [->|Hne].
        -- rewrite upd_same. unfold Rw; simpl. rewrite Hs. split; [lia|]. split; [lia|]. split; [exact C|].
           intros E. specialize (D E). rewrite <- D. unfold own; simpl. rewrite upd_same. reflexivity.
        -- rewrite upd_other by exact Hne. specialize (H4 w'). unfold Rw in *; simpl.
           destruct (w_h s w'), (seen r w') eqn:Hs'; try exact H4.
           destruct H4 as (A' & B' & C' & D'). split; [lia|]. split; [lia|]. split; [exact C'|].
           intros E; rewrite (D' E). unfold own; simpl.
           destruct (match draft r w with Some x => Some x | None => _ end); [|reflexivity].
           rewrite upd_other by exact Hne. reflexivity.
      * intros w' Hw'. destruct (Nat.eq_dec w' w) as [->|Hne]; [congruence|].
        destruct (own r w); [rewrite upd_other by exact Hne|]; auto.
    + pose proof HR as HR'. unfold R in HR'.
      assert (Hs : seen r w = None).
      { destruct (d_version (w_disk s)).
        - destruct HR' as (_ & _ & _ & H4 & _). specialize (H4 w). unfold Rw in H4.
          rewrite Hh in H4. destruct (seen r w); [contradiction|reflexivity].
        - apply HR'. }
      rewrite Hs. split; [exact HR|reflexivity].
  - (* putcur *) simpl. destruct (w_h s w) as [h|] eqn:Hh.
    + pose proof HR as HR'. unfold R in HR'.
      destruct (d_version (w_disk s)) as [v|] eqn:Hv.
      2:{ destruct HR' as (_ & _ & HR'). destruct (HR' w) as [E _]. congruence. }
      destruct HR' as (H1 & H2 & H3 & H4 & H5).
      pose proof (H4 w) as Hw. unfold Rw in Hw. rewrite Hh in Hw.
      destruct (seen r w) as [n|] eqn:Hs; [|contradiction].
      destruct Hw as (A & B & C & D).
      pose proof (put_refines s r w (h_current h) HR h Hh) as P.
      destruct (vr_put (w_disk s) h (h_current h)) as [[d h'] q].
      assert (Hown : exists z, own r w = Some z).
      { unfold own. destruct (draft r w); [eauto|]. rewrite Hs. destruct n as [|n]; [lia|].
        destruct (nth_error (log r) n) eqn:E; [eauto|]. apply nth_error_None in E. lia. }
      destruct Hown as [z Hz].
      assert (E : spec_put r w (own r w) = spec_put r w (Some (h_current h))).
      { destruct (Nat.eq_dec n (length (log r))) as [En|En].
        - rewrite (D En). reflexivity.
        - rewrite Hz. unfold spec_put. rewrite Hs, (uptodate_eq _ _ _ Hs).
          destruct (Nat.eqb_spec n (length (log r))); [contradiction|]. reflexivity. }
      rewrite E. destruct (spec_put r w (Some (h_current h))) as [r' y]. exact P.
    + pose proof HR as HR'. unfold R in HR'. unfold spec_put.
      assert (Hs : seen r w = None).
      { destruct (d_version (w_disk s)).
        - destruct HR' as (_ & _ & _ & H4 & _). specialize (H4 w). unfold Rw in H4.
          rewrite Hh in H4. destruct (seen r w); [contradiction|reflexivity].
        - apply HR'. }
      rewrite Hs. split; [exact HR|reflexivity].
  - (* lockfail *) simpl. split; [exact HR|reflexivity].
Qed.

Lemma run_refines (os : list (op T)) : forall s r, R s r -> disciplined r os = true ->
  R (fst (run s os)) (fst (spec_run r os)) /\ snd (run s os) = snd (spec_run r os).
Proof.
  induction os as [|o os IH]; intros s r HR Hd; simpl in *; [auto|].
  apply andb_prop in Hd as [Hd1 Hd2].
  destruct (step_refines s r o HR Hd1) as [HR1 Ho].
  destruct (step s o) as [s1 x], (spec_step r o) as [r1 y]; simpl in *. subst y.
  destruct (IH s1 r1 HR1 Hd2) as [HR2 Hos].
  destruct (run s1 os), (spec_run r1 os); simpl in *. subst. auto.
Qed.

Lemma store_refines_register_lemma (os : list (op T)) :
  disciplined reg0 os = true ->
  snd (run init os) = snd (spec_run reg0 os).
Proof. intros H. apply run_refines; [apply R_init|exact H]. Qed.

(** Disk contents versus log, for the "nothing else changes" part. *)
Lemma disk_holds_latest_lemma (os : list (op T)) :
  disciplined reg0 os = true ->
  d_data (w_disk (fst (run init os))) = latest (fst (spec_run reg0 os)).
Proof.
  intros H. destruct (run_refines os init reg0 R_init H) as [HR _].
  unfold R in HR. destruct (d_version _).
  - apply HR.
  - destruct HR as (E & -> & _). unfold latest. rewrite E. reflexivity.
Qed.


(** * Acceptance at trace level, without any calling discipline *)

(** All versions ever handed out are below [d_fresh]. *)
Definition VI s : Prop :=
  (forall v, d_version (w_disk s) = Some v -> v < d_fresh (w_disk s) /\ d_data (w_disk s) <> None) /\
  (forall w h, w_h s w = Some h ->
     h_version h < d_fresh (w_disk s) /\ d_version (w_disk s) <> None).

Lemma VI_init : VI (init (T:=T)).
Proof. split; simpl; intros; discriminate. Qed.

Lemma VI_upd (d : disk T) hs w h :
  VI (mkWorld d hs) -> h_version h < d_fresh d -> d_version d <> None ->
  VI (mkWorld d (upd hs w (Some h))).
Proof.
  intros [H1 H2] Hh Hd. split; simpl in *; [exact H1|].
  intros w' h' E. destruct (Nat.eq_dec w' w) as [->|Hne].
  - rewrite upd_same in E. inversion E; subst; auto.
  - rewrite upd_other in E by exact Hne. eauto.
Qed.

Lemma VI_bump (d : disk T) hs x :
  VI (mkWorld d hs) ->
  VI (mkWorld (mkDisk (Some (d_fresh d)) (Some x) (S (d_fresh d))) hs).
Proof.
  intros [H1 H2]. split; simpl in *.
  - intros v E; inversion E; subst. split; [lia|discriminate].
  - intros w h E. destruct (H2 w h E). split; [lia|discriminate].
Qed.

Lemma sync_version (d : disk T) h h' hs :
  VI (mkWorld d hs) -> vr_sync d h = Ok h' ->
  d_version d = Some (h_version h') /\ h_version h' < d_fresh d.
Proof.
  intros [HV _] E. simpl in HV. unfold vr_sync, read, bind in E.
  destruct (d_version d) as [v|]; [|discriminate].
  destruct (HV v eq_refl) as [Hlt _].
  destruct (Nat.eqb_spec (h_version h) v).
  - inversion E; subst; auto.
  - destruct (d_data d); inversion E; subst; simpl; auto.
Qed.

(** One step: version bookkeeping. *)
Ltac nochange HV :=
  split; [exact HV|]; split; [discriminate|]; split; [reflexivity|];
  split; [reflexivity|]; split; [discriminate|];
  split; intros _ h0 E0; (exists h0; split; [congruence|reflexivity]).

Ltac change_ok :=
  split; [first [discriminate | intros _; reflexivity]|];
  split; [first [discriminate | intros _; reflexivity]|];
  split; [intros w' Hne; apply upd_other; exact Hne|];
  split; [intros _; eexists; split; [rewrite upd_same; reflexivity|simpl; first [reflexivity|assumption]]|];
  split; discriminate.

Ltac change_rej :=
  split; [discriminate|]; split; [reflexivity|];
  split; [intros w' Hne; apply upd_other; exact Hne|];
  split; [discriminate|];
  split; intros _ h0 E0;
  [rewrite upd_same in E0; inversion E0; subst; eexists; split; [first [reflexivity|eassumption]|reflexivity]|
   rewrite upd_same; eexists; split; [reflexivity|]; simpl; congruence].

Lemma step_versions s o :
  VI s ->
  let s' := fst (step s o) in let y := snd (step s o) in
  VI s' /\
  (stored o y = true -> d_version (w_disk s') = Some (d_fresh (w_disk s))) /\
  (stored o y = false -> w_disk s' = w_disk s) /\
  (forall w', w' <> op_worker o -> w_h s' w' = w_h s w') /\
  (refreshed o y = true ->
     exists h, w_h s' (op_worker o) = Some h /\ d_version (w_disk s') = Some (h_version h)) /\
  (refreshed o y = false ->
     forall h, w_h s' (op_worker o) = Some h ->
     exists h0, w_h s (op_worker o) = Some h0 /\ h_version h0 = h_version h) /\
  (refreshed o y = false -> forall h0, w_h s (op_worker o) = Some h0 ->
     exists h, w_h s' (op_worker o) = Some h /\ h_version h0 = h_version h).
Proof.
  intros HV. pose proof HV as HV0. destruct s as [d hs].
  assert (HPut : forall w h x, hs w = Some h ->
    let '(d', h', q) := vr_put d h x in
    match q with
    | Ok _ => d' = mkDisk (Some (d_fresh d)) (Some x) (S (d_fresh d)) /\
              h' = mkHandle x (d_fresh d) /\ d_version d = Some (h_version h)
    | Err e => d' = d /\ h' = h
    end).
  { intros w h x Hh. unfold vr_put. destruct (d_version d) as [v|] eqn:Ev; [|auto].
    destruct (Nat.eqb_spec (h_version h) v); simpl; subst; auto. }
  destruct o as [w x|w|w|w x|w f|w f|w|w]; cbn [step op_worker w_disk w_h].
  - unfold vr_new. destruct (d_version d) as [v|] eqn:Ev; simpl.
    + solve [nochange HV].
    + split.
      { apply (VI_upd (mkDisk (Some (d_fresh d)) (Some x) (S (d_fresh d))) hs w); simpl; auto; try discriminate.
        apply VI_bump; exact HV. }
      change_ok.
  - unfold vr_load, read, bind. destruct (d_version d) as [v|] eqn:Ev; simpl.
    + destruct (proj1 HV v Ev) as [Hlt Hdd]; simpl in *.
      destruct (d_data d) as [x|] eqn:Ed; [|congruence]. simpl.
      split. { apply VI_upd; auto; simpl; congruence. }
      change_ok.
    + solve [nochange HV].
  - destruct (hs w) as [h|] eqn:Hh; simpl.
    + destruct (vr_sync d h) as [h'|e] eqn:Es; simpl.
      * destruct (sync_version d h h' hs HV Es) as [E1 E2].
        split. { apply VI_upd; auto; simpl; congruence. }
        change_ok.
      * solve [nochange HV].
    + solve [nochange HV].
  - destruct (hs w) as [h|] eqn:Hh; simpl.
    + specialize (HPut w h x Hh). destruct (vr_put d h x) as [[d' h'] q]. destruct q as [[]|e]; simpl.
      * destruct HPut as (-> & -> & Hv).
        split. { apply VI_upd; simpl; auto; try discriminate. apply VI_bump; exact HV. }
        change_ok.
      * destruct HPut as (-> & ->).
        split. { apply VI_upd; simpl; auto; apply (proj2 HV w h Hh). }
        change_rej.
    + solve [nochange HV].
  - destruct (hs w) as [h|] eqn:Hh; simpl.
    + destruct (vr_sync d h) as [h1|e] eqn:Es; simpl.
      * destruct (sync_version d h h1 hs HV Es) as [E1 E2].
        destruct (f (h_current h1)) as [y|] eqn:Ef.
        -- unfold vr_put. rewrite E1. rewrite Nat.eqb_refl. simpl.
           split. { apply (VI_upd (mkDisk (Some (d_fresh d)) (Some y) (S (d_fresh d))) hs w); simpl; auto; try discriminate. apply VI_bump; exact HV. }
           rewrite Ef. change_ok.
        -- simpl. rewrite Ef. split. { apply VI_upd; auto; simpl; congruence. }
           change_ok.
      * solve [nochange HV].
    + solve [nochange HV].
  - destruct (hs w) as [h|] eqn:Hh; simpl.
    + split. { apply VI_upd; simpl; auto; apply (proj2 HV w h Hh). }
      change_rej.
    + solve [nochange HV].
  - destruct (hs w) as [h|] eqn:Hh; simpl.
    + specialize (HPut w h (h_current h) Hh).
      destruct (vr_put d h (h_current h)) as [[d' h'] q]. destruct q as [[]|e]; simpl.
      * destruct HPut as (-> & -> & Hv).
        split. { apply VI_upd; simpl; auto; try discriminate. apply VI_bump; exact HV. }
        change_ok.
      * destruct HPut as (-> & ->).
        split. { apply VI_upd; simpl; auto; apply (proj2 HV w h Hh). }
        change_rej.
    + solve [nochange HV].
  - simpl. solve [nochange HV].
Qed.

Lemma run_VI (os : list (op T)) : forall s, VI s -> VI (fst (run s os)).
Proof.
  induction os as [|o os IH]; intros s H; simpl; [exact H|].
  destruct (step_versions s o H) as [H1 _].
  destruct (step s o) as [s1 y]; simpl in *. specialize (IH s1 H1).
  destruct (run s1 os); exact IH.
Qed.

Lemma mid_run (mid : list (op T)) : forall s w h,
  VI s -> w_h s w = Some h ->
  let s' := fst (run s mid) in let ys := snd (run s mid) in
  (forall o y, In (o, y) (combine mid ys) -> op_worker o = w -> refreshed o y = false) ->
  VI s' /\
  (exists h', w_h s' w = Some h' /\ h_version h' = h_version h) /\
  (existsb (fun p => stored (fst p) (snd p)) (combine mid ys) = false ->
     w_disk s' = w_disk s) /\
  (existsb (fun p => stored (fst p) (snd p)) (combine mid ys) = true ->
     exists v, d_version (w_disk s') = Some v /\ v <> h_version h).
Proof.
  induction mid as [|o mid IH]; intros s w h HV Hh; simpl.
  - intros _. split; [exact HV|]. split; [eauto|]. split; [reflexivity|discriminate].
  - pose proof (step_versions s o HV) as HS. cbv zeta in HS.
    destruct (step s o) as [s1 y] eqn:Es. simpl in HS.
    destruct HS as (V1 & S1 & S2 & S3 & S4 & S5 & S6).
    destruct (run s1 mid) as [s2 ys] eqn:Er. simpl. intros Hmid.
    assert (Hh1 : exists h1, w_h s1 w = Some h1 /\ h_version h1 = h_version h).
    { destruct (Nat.eq_dec w (op_worker o)) as [Ew|Ew].
      - assert (Hr : refreshed o y = false) by (apply Hmid; [left; reflexivity|auto]).
        subst w. destruct (S6 Hr h Hh) as (h1 & A & B). exists h1; split; congruence.
      - rewrite S3 by exact Ew. eauto. }
    destruct Hh1 as (h1 & Hh1 & Ev1).
    specialize (IH s1 w h1 V1 Hh1). rewrite Er in IH. simpl in IH.
    destruct IH as (VI2 & (h2 & Hh2 & Ev2) & D1 & D2).
    { intros o' y' Hin Hw. apply Hmid; [right; exact Hin|exact Hw]. }
    split; [exact VI2|]. split; [exists h2; split; congruence|]. split.
    + intros E. apply orb_false_elim in E as [E1 E2]. rewrite (D1 E2). apply S2; exact E1.
    + intros E. apply orb_prop in E.
      destruct (existsb (fun p => stored (fst p) (snd p)) (combine mid ys)) eqn:Ee.
      * destruct (D2 eq_refl) as (v & A & B). exists v. split; [exact A|congruence].
      * destruct E as [E|E]; [|discriminate]. rewrite (D1 eq_refl), (S1 E).
        eexists; split; [reflexivity|]. destruct HV as [_ HV]. destruct (HV w h Hh). lia.
Qed.

Lemma put_accepted_iff_lemma (pre : list (op T)) o (mid : list (op T)) w x :
  let s1 := fst (run init pre) in
  let s2 := fst (step s1 o) in let y := snd (step s1 o) in
  let s3 := fst (run s2 mid) in let ys := snd (run s2 mid) in
  op_worker o = w -> refreshed o y = true ->
  (forall o' y', In (o', y') (combine mid ys) -> op_worker o' = w -> refreshed o' y' = false) ->
  let s4 := fst (step s3 (OPut w x)) in
  let z := snd (step s3 (OPut w x)) in
  if existsb (fun p => stored (fst p) (snd p)) (combine mid ys)
  then z = OutErr VersionMismatchError /\ w_disk s4 = w_disk s3
  else z = OutUnit /\ d_data (w_disk s4) = Some x.
Proof.
  cbv zeta. intros Hw Hr Hmid.
  pose proof (run_VI pre init VI_init) as V1.
  set (s1 := fst (run init pre)) in *.
  destruct (step_versions s1 o V1) as (V2 & _ & _ & _ & S4 & _ & _).
  specialize (S4 Hr). destruct S4 as (h & Hh & Ehv). rewrite Hw in Hh.
  set (s2 := fst (step s1 o)) in *.
  pose proof (mid_run mid s2 w h V2 Hh) as HM. cbv zeta in HM. specialize (HM Hmid).
  destruct HM as (V3 & (h' & Hh' & Ev') & D1 & D2).
  set (s3 := fst (run s2 mid)) in *.
  cbn [step]. rewrite Hh'.
  destruct (existsb _ _).
  - destruct (D2 eq_refl) as (v & A & B). unfold vr_put. rewrite A.
    destruct (Nat.eqb_spec (h_version h') v); [congruence|]. simpl. auto.
  - specialize (D1 eq_refl). unfold vr_put. rewrite D1, Ehv, Ev', Nat.eqb_refl. simpl. auto.
Qed.

(** * new_or_load *)

Definition NLI (data : nat -> T) (c : nat) (d : disk T) (pcs : nat -> nl_pc T) : Prop :=
  d = mkDisk (Some 0) (Some (data c)) 1 /\
  pcs c = NLCreated (mkHandle (data c) 0) /\
  (forall w, w <> c -> pcs w = NLStart \/ pcs w = NLNeedLoad \/
                       pcs w = NLLoaded (mkHandle (data c) 0)).

Lemma nl_inv data c ws : forall d pcs, NLI data c d pcs ->
  NLI data c (fst (nl_run data d pcs ws)) (snd (nl_run data d pcs ws)) /\
  (forall w, w <> c ->
     (pcs w = NLStart -> count_occ Nat.eq_dec ws w >= 2 ->
        snd (nl_run data d pcs ws) w = NLLoaded (mkHandle (data c) 0)) /\
     (pcs w = NLNeedLoad -> count_occ Nat.eq_dec ws w >= 1 ->
        snd (nl_run data d pcs ws) w = NLLoaded (mkHandle (data c) 0)) /\
     (pcs w = NLLoaded (mkHandle (data c) 0) ->
        snd (nl_run data d pcs ws) w = NLLoaded (mkHandle (data c) 0))).
Proof.
  induction ws as [|u ws IH]; intros d pcs HI.
  - simpl. split; [exact HI|]. intros w Hne. repeat split; auto; intros; lia.
  - assert (HS : exists pcs', nl_step data d pcs u = (d, pcs') /\ NLI data c d pcs' /\
              (forall w, w <> u -> pcs' w = pcs w) /\
              (u <> c -> pcs u = NLStart -> pcs' u = NLNeedLoad) /\
              (u <> c -> pcs u = NLNeedLoad -> pcs' u = NLLoaded (mkHandle (data c) 0)) /\
              (u <> c -> pcs u = NLLoaded (mkHandle (data c) 0) -> pcs' u = NLLoaded (mkHandle (data c) 0))).
    { destruct HI as (-> & Hc & Ho). unfold nl_step.
      destruct (Nat.eq_dec u c) as [->|Hne].
      - rewrite Hc. exists pcs. repeat split; auto; intros; contradiction.
      - destruct (Ho u Hne) as [E|[E|E]]; rewrite E; simpl;
          eexists; (split; [reflexivity|]).
        + split. { split; [reflexivity|]. split; [rewrite upd_other by auto; exact Hc|].
            intros w Hw. destruct (Nat.eq_dec w u) as [->|Hwu]; [rewrite upd_same; auto|].
            rewrite upd_other by exact Hwu. auto. }
          repeat split; intros; try (rewrite upd_other by assumption; reflexivity);
            try (rewrite upd_same; reflexivity); try discriminate.
        + split. { split; [reflexivity|]. split; [rewrite upd_other by auto; exact Hc|].
            intros w Hw. destruct (Nat.eq_dec w u) as [->|Hwu]; [rewrite upd_same; auto|].
            rewrite upd_other by exact Hwu. auto. }
          repeat split; intros; try (rewrite upd_other by assumption; reflexivity);
            try (rewrite upd_same; reflexivity); try discriminate.
        + split. { split; [reflexivity|]. split; [exact Hc|exact Ho]. }
          repeat split; intros; auto; try discriminate. }
    destruct HS as (pcs' & Es & HI' & Hoth & A & B & C).
    cbn [nl_run]. rewrite Es. destruct (IH d pcs' HI') as [HI2 HL].
    split; [exact HI2|]. intros w Hne. destruct (HL w Hne) as (L1 & L2 & L3).
    cbn [count_occ]. destruct (Nat.eq_dec u w) as [->|Huw].
    + repeat split; intros.
      * apply L2; [auto|lia].
      * apply L3; auto.
      * apply L3; auto.
    + assert (Ew : pcs' w = pcs w) by (apply Hoth; auto).
      rewrite <- Ew. repeat split; intros; auto.
Qed.

Lemma new_or_load_elects_one_lemma (data : nat -> T) (c : nat) (ws : list nat) :
  let '(d, pcs) := nl_run data (mkDisk None None 0) (fun _ => NLStart) (c :: ws) in
  d_data d = Some (data c) /\
  (exists h, pcs c = NLCreated h /\ h_current h = data c) /\
  (forall w h, pcs w = NLCreated h -> w = c) /\
  (forall w e, pcs w <> NLRaised e) /\
  (forall w h, pcs w = NLLoaded h -> h_current h = data c) /\
  (forall w, w <> c -> 2 <= count_occ Nat.eq_dec ws w ->
     exists h, pcs w = NLLoaded h /\ h_current h = data c).
Proof.
  set (d1 := mkDisk (Some 0) (Some (data c)) 1).
  set (p1 := upd (fun _ => NLStart) c (NLCreated (mkHandle (data c) 0))).
  change (nl_run data (mkDisk None None 0) (fun _ => NLStart) (c :: ws)) with (nl_run data d1 p1 ws).
  assert (HI : NLI data c d1 p1).
  { split; [reflexivity|]. split; [apply upd_same|]. intros w Hne. left. unfold p1.
    rewrite upd_other by exact Hne. reflexivity. }
  destruct (nl_inv data c ws d1 p1 HI) as [(Hd & Hc & Ho) HL].
  destruct (nl_run data d1 p1 ws) as [d pcs]; simpl in *. subst d. simpl.
  split; [reflexivity|]. split; [eexists; split; [exact Hc|reflexivity]|].
  split; [|split; [|split]].
  - intros w h E. destruct (Nat.eq_dec w c) as [|Hne]; [assumption|].
    destruct (Ho w Hne) as [E'|[E'|E']]; congruence.
  - intros w e E. destruct (Nat.eq_dec w c) as [->|Hne]; [congruence|].
    destruct (Ho w Hne) as [E'|[E'|E']]; congruence.
  - intros w h E. destruct (Nat.eq_dec w c) as [->|Hne]; [congruence|].
    destruct (Ho w Hne) as [E'|[E'|E']]; try congruence.
    rewrite E in E'. inversion E'; reflexivity.
  - intros w Hne H2. destruct (HL w Hne) as (L1 & _ & _).
    eexists; split; [apply L1; [|lia]|reflexivity].
    unfold p1. rewrite upd_other by exact Hne. reflexivity.
Qed.

End Proofs.
