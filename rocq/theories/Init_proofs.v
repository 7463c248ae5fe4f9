From Verif Require Import Py Fs_model Fs_spec Fs_proofs Init_model Init_spec.

Lemma write_info_plain i : plain (VDict i) -> write_info i = ([ITruncInfo; IFillInfo i], None).
Proof. intros P. unfold write_info. rewrite (plain_serialisable _ P), (plain_norm_dict _ P). reflexivity. Qed.

Lemma first_opening_lemma a n : plain (VDict (a_info a)) ->
  outcome no_fs a n = Ok (mkNS (a_info a) (a_seed a) [] (a_opt a)) /\
  holds_state (opened no_fs a n) (mkNS (a_info a) (a_seed a) [] (a_opt a)).
Proof.
  intros P. unfold opened, outcome, open_all, open_info. rewrite (write_info_plain _ P).
  cbn. split; [reflexivity|]. constructor; cbn; eauto.
Qed.

Lemma reopen_lemma x r a n : holds_state x r -> py_eqb (VDict (n_info r)) (VDict (a_info a)) = true ->
  outcome x a n = Ok r /\ opened x a n = x.
Proof.
  intros [E [v1 V1] I [v2 V2] S1 S2 S3 [v3 V3] Er [v4 V4] O] Q.
  destruct x as [e vi fi vs py si np ve fe vo fo]. destruct r as [ri [rp rsi rn] re ro]; cbn -[py_eqb] in *. subst.
  unfold opened, outcome, open_all, check_info, open_info, open_seed, open_err, open_opt, read_info, read_seed, read_err, read_opt, new_or_load, andthen.
  cbn -[py_eqb write_info write_seed write_err write_opt]. rewrite Q.
  cbn -[py_eqb write_info write_seed write_err write_opt]. auto.
Qed.

Lemma mismatch_lemma x a n i : d_exists x = true -> f_info x = Full i ->
  py_eqb (VDict i) (VDict (a_info a)) = false ->
  outcome x a n = Err NePSError /\ opened x a n = x.
Proof.
  intros E I Q. destruct x as [e vi fi vs py si np ve fe vo fo]; cbn -[py_eqb] in *. subst.
  unfold opened, outcome, open_all, check_info, read_info, andthen.
  cbn -[py_eqb]. rewrite Q. cbn. auto.
Qed.

Lemma load_state_lemma x r : holds_state x r -> load_state x = Ok r.
Proof.
  intros [E [v1 V1] I [v2 V2] S1 S2 S3 [v3 V3] Er [v4 V4] O].
  destruct x as [e vi fi vs py si np ve fe vo fo]. destruct r as [ri [rp rsi rn] re ro]; cbn -[py_eqb] in *. subst. reflexivity.
Qed.

Lemma no_info_lemma x a n : d_exists x = true -> f_info x = Absent ->
  outcome x a n = Err FileNotFoundError.
Proof.
  intros E I. destruct x as [e vi fi vs py si np ve fe vo fo]; cbn -[py_eqb] in *. subst.
  reflexivity.
Qed.

(** ** Killed during the first opening *)
Lemma killed_lemma a n k a' n' : plain_info (a_info a) -> a_info a' = a_info a ->
  is_ok (outcome (open_killed no_fs a n k) a' n') = true <->
  (k = 0 \/ k = 5 \/ k = 12 \/ k = 13 \/ k = 16 \/ k = 17 \/ 21 <= k).
Proof.
  intros [P Q] Ei. unfold open_killed, outcome, open_all at 2, open_info. rewrite (write_info_plain _ P).
  assert (P' : plain (VDict (a_info a'))) by (rewrite Ei; exact P).
  assert (C : forall x, f_info x = Full (a_info a) -> check_info x a' = Ok tt).
  { intros x E. unfold check_info, read_info. rewrite E. cbn -[py_eqb]. rewrite Ei, Q. reflexivity. }
  match goal with |- context [firstn k ?l] => let l' := eval cbn in l in change l with l' end.
  assert (D : k < 21 \/ 21 <= k) by lia. destruct D as [D|D].
  - do 21 (destruct k as [|k]; [
      cbn [firstn do_iops fold_left]; unfold open_all, open_info; rewrite (write_info_plain _ P');
      cbn -[check_info]; rewrite ?C by reflexivity; cbn;
      split; [intros X; first [discriminate X|lia]|intros X; first [reflexivity|lia]]|]). lia.
  - rewrite firstn_all2 by (cbn; lia). cbn [do_iops fold_left]. unfold open_all, open_info. rewrite (write_info_plain _ P').
    cbn -[check_info]. rewrite ?C by reflexivity. cbn. split; [intros; lia|reflexivity].
Qed.

(** ** Concurrent openings *)
Section Conc.
Variables (a : nat -> args) (i0 : dict).
Hypothesis Hp : plain_info i0.
Hypothesis Ha : forall w, a_info (a w) = i0.

Inductive info_state (x : fs) (c : nat -> pc) : option nat -> Prop :=
| is_none : v_info x = Absent -> f_info x = Absent -> info_state x c None
| is_done n : v_info x = Full n -> f_info x = Full i0 -> info_state x c None
| is_w0 w n : c w = PInfoW [ITruncVInfo; IFillVInfo n; ITruncInfo; IFillInfo i0] ->
    f_info x = Absent -> info_state x c (Some w)
| is_w1 w n : c w = PInfoW [IFillVInfo n; ITruncInfo; IFillInfo i0] ->
    f_info x = Absent -> info_state x c (Some w)
| is_w2 w n : c w = PInfoW [ITruncInfo; IFillInfo i0] -> v_info x = Full n ->
    f_info x = Absent -> info_state x c (Some w)
| is_w3 w n : c w = PInfoW [IFillInfo i0] -> v_info x = Full n ->
    f_info x = Empty -> info_state x c (Some w)
| is_w4 w n : c w = PInfoW [] -> v_info x = Full n ->
    f_info x = Full i0 -> info_state x c (Some w).

Definition seed_state (x : fs) (v : option seed) : Prop :=
  match v with
  | None => v_seed x = Absent
  | Some s => (exists n, v_seed x = Full n) /\ f_py x = Full (s_py s) /\
      f_seedinfo x = Full (s_info s) /\ f_np x = Full (s_np s)
  end.
Definition err_state (x : fs) : Prop :=
  v_err x = Absent \/ ((exists n, v_err x = Full n) /\ f_err x = Full []).
Definition opt_state (x : fs) (v : option optstate) : Prop :=
  match v with
  | None => v_opt x = Absent
  | Some o => (exists n, v_opt x = Full n) /\ f_opt x = Full o
  end.

Definition pc_ok (x : fs) (lock : option nat) (w : nat) (p : pc) : Prop :=
  match p with
  | PInfoW _ => lock = Some w
  | PSeed i => i = i0
  | PErrs i s => i = i0 /\ seed_state x (Some s)
  | POpt i s e => i = i0 /\ seed_state x (Some s) /\ e = []
  | PDone r => n_info r = i0 /\ seed_state x (Some (n_seed r)) /\ n_err r = [] /\
      opt_state x (Some (n_opt r))
  | PFail e => e = FileNotFoundError \/ e = TypeError
  | _ => True
  end.

Record cinv (s : cstate) : Prop := {
  ci_info : info_state (c_fs s) (c_pc s) (c_lock s);
  ci_seed : exists v, seed_state (c_fs s) v;
  ci_err : err_state (c_fs s);
  ci_opt : exists v, opt_state (c_fs s) v;
  ci_pc : forall w, pc_ok (c_fs s) (c_lock s) w (c_pc s w) }.

Lemma upd_same {A} (f : nat -> A) k v : upd f k v k = v.
Proof. unfold upd. rewrite Nat.eqb_refl. reflexivity. Qed.
Lemma upd_other {A} (f : nat -> A) k v k' : k' <> k -> upd f k v k' = f k'.
Proof. intros H. unfold upd. destruct (Nat.eqb_spec k' k); [congruence|reflexivity]. Qed.

Lemma info_state_upd x c l w p : info_state x c l -> l <> Some w -> info_state x (upd c w p) l.
Proof.
  intros H N. destruct H;
    [apply is_none|eapply is_done|eapply is_w0|eapply is_w1|eapply is_w2|eapply is_w3|eapply is_w4];
    eauto; rewrite upd_other by congruence; eauto.
Qed.
Lemma info_state_ext x y c l : info_state x c l -> v_info y = v_info x -> f_info y = f_info x -> info_state y c l.
Proof.
  intros H E1 E2. destruct H;
    [apply is_none|eapply is_done|eapply is_w0|eapply is_w1|eapply is_w2|eapply is_w3|eapply is_w4];
    try rewrite E1; try rewrite E2; eauto.
Qed.

Lemma write_info_0 w : write_info (a_info (a w)) = ([ITruncInfo; IFillInfo i0], None).
Proof. rewrite Ha. apply write_info_plain, Hp. Qed.

(** Parts of the directory that an operation on another part leaves alone. *)
Definition same_info (x y : fs) : Prop := v_info y = v_info x /\ f_info y = f_info x.
Definition same_rest (x y : fs) : Prop :=
  v_seed y = v_seed x /\ f_py y = f_py x /\ f_seedinfo y = f_seedinfo x /\ f_np y = f_np x /\
  v_err y = v_err x /\ f_err y = f_err x /\ v_opt y = v_opt x /\ f_opt y = f_opt x.

Lemma rest_state x y : same_rest x y ->
  (forall v, seed_state x v -> seed_state y v) /\ (err_state x -> err_state y) /\
  (forall v, opt_state x v -> opt_state y v).
Proof.
  intros (E1 & E2 & E3 & E4 & E5 & E6 & E7 & E8). unfold seed_state, err_state, opt_state.
  split; [|split].
  - intros [v|]; [|congruence]. intros ((n & V) & A & B & C).
    split; [exists n; congruence|]. split; [congruence|]. split; congruence.
  - intros [A|[[n V] A]]; [left; congruence|]. right. split; [exists n; congruence|congruence].
  - intros [v|]; [|congruence]. intros ((n & V) & A). split; [exists n; congruence|congruence].
Qed.

Lemma pc_ok_ext x y l l' w p : (forall s, seed_state x (Some s) -> seed_state y (Some s)) ->
  (forall o, opt_state x (Some o) -> opt_state y (Some o)) ->
  (forall r, p = PInfoW r -> l' = l) -> pc_ok x l w p -> pc_ok y l' w p.
Proof.
  intros Hs Ho Hl. destruct p; cbn [pc_ok]; auto.
  - rewrite (Hl _ eq_refl). auto.
  - intros [? ?]; split; auto.
  - intros (? & ? & ?); split; [|split]; auto.
  - intros (? & ? & ? & ?); split; [|split; [|split]]; auto.
Qed.

Lemma check_cases x c l w : info_state x c l ->
  check_info x (a w) = Ok tt \/ check_info x (a w) = Err FileNotFoundError \/ check_info x (a w) = Err TypeError.
Proof.
  intros H. unfold check_info, read_info. destruct H;
    match goal with E : f_info x = _ |- _ => rewrite E end; cbn -[py_eqb]; auto;
    rewrite Ha, (proj2 Hp); auto.
Qed.

Definition after_seed (x : fs) (w : nat) (n : nat) : fs := do_iops x (fst (open_seed x (a w) n)).

Lemma open_seed_spec x w n : (exists v, seed_state x v) ->
  exists v, snd (open_seed x (a w) n) = Ok v /\
    let y := do_iops x (fst (open_seed x (a w) n)) in
    seed_state y (Some v) /\ (forall s, seed_state x (Some s) -> seed_state y (Some s)) /\
    d_exists y = d_exists x /\ same_info x y /\ v_err y = v_err x /\ f_err y = f_err x /\ v_opt y = v_opt x /\ f_opt y = f_opt x.
Proof.
  intros [[v|] H]; destruct x as [e vi fi vs py si np ve fe vo fo]; cbn in H.
  - destruct H as ((m & V) & A & B & C); cbn in *; subst. exists v. unfold open_seed, new_or_load. cbn.
    split; [destruct v; reflexivity|]. unfold seed_state, same_info; cbn.
    split; [split; eauto|]. auto 10.
  - cbn in H. subst vs. exists (a_seed (a w)). unfold open_seed, new_or_load. cbn.
    split; [reflexivity|]. unfold seed_state, same_info; cbn. split; [split; eauto|].
    split; [|auto 10]. intros s ((m & V) & _). discriminate.
Qed.
Lemma open_err_spec x n : err_state x ->
  snd (open_err x n) = Ok [] /\
    let y := do_iops x (fst (open_err x n)) in
    err_state y /\ d_exists y = d_exists x /\ same_info x y /\ v_seed y = v_seed x /\ f_py y = f_py x /\ f_seedinfo y = f_seedinfo x /\
    f_np y = f_np x /\ v_opt y = v_opt x /\ f_opt y = f_opt x.
Proof.
  intros H; destruct x as [e vi fi vs py si np ve fe vo fo]; unfold err_state in H; cbn in H.
  destruct H as [->|[[m ->] ->]]; unfold open_err, new_or_load, err_state, same_info; cbn; eauto 15.
Qed.
Lemma open_opt_spec x w n : (exists v, opt_state x v) ->
  exists v, snd (open_opt x (a w) n) = Ok v /\
    let y := do_iops x (fst (open_opt x (a w) n)) in
    opt_state y (Some v) /\ (forall s, opt_state x (Some s) -> opt_state y (Some s)) /\
    d_exists y = d_exists x /\ same_info x y /\ v_err y = v_err x /\ f_err y = f_err x /\ v_seed y = v_seed x /\ f_py y = f_py x /\
    f_seedinfo y = f_seedinfo x /\ f_np y = f_np x.
Proof.
  intros [[v|] H]; destruct x as [e vi fi vs py si np ve fe vo fo]; cbn in H.
  - destruct H as ((m & V) & A); cbn in *; subst. exists v. unfold open_opt, new_or_load. cbn.
    split; [reflexivity|]. unfold opt_state, same_info; cbn.
    split; [split; eauto|]. auto 12.
  - cbn in H. subst vo. exists (a_opt (a w)). unfold open_opt, new_or_load. cbn.
    split; [reflexivity|]. unfold opt_state, same_info; cbn. split; [split; eauto|].
    split; [|auto 12]. intros s ((m & V) & _). discriminate.
Qed.

Lemma goto_inv s w p : cinv s -> (forall r, c_pc s w <> PInfoW r) -> pc_ok (c_fs s) (c_lock s) w p ->
  cinv (mkC (c_fs s) (upd (c_pc s) w p) (c_lock s) (c_next s)).
Proof.
  intros [I1 I2 I3 I4 I5] N P. split; cbn; auto.
  - apply info_state_upd; [exact I1|]. intros E. rewrite E in I1. inversion I1; subst; eapply N; eauto.
  - intros w'. destruct (Nat.eq_dec w' w) as [->|Ne]; [rewrite upd_same; exact P|rewrite upd_other by exact Ne; apply I5].
Qed.

Lemma cstep_inv s w : cinv s -> cinv (cstep a s w).
Proof.
  intros I. pose proof I as [I1 I2 I3 I4 I5]. pose proof (I5 w) as Pw. unfold cstep.
  destruct (c_pc s w) as [|b| | |rest|i|i v|i v e|r|e] eqn:Ew.
  - apply goto_inv; [exact I|congruence|exact Logic.I].
  - assert (Nl : c_lock s <> Some w).
    { intros E. rewrite E in I1. inversion I1; congruence. }
    assert (SR : same_rest (c_fs s) (do_iop (c_fs s) IMkdir)) by (destruct (c_fs s); unfold same_rest; cbn; auto 10).
    destruct (rest_state _ _ SR) as (R1 & R2 & R3).
    split; cbn [c_fs c_pc c_lock].
    + eapply info_state_ext; [apply info_state_upd; eassumption| |]; destruct (c_fs s); reflexivity.
    + destruct I2 as [v I2]; eauto.
    + auto.
    + destruct I4 as [v I4]; eauto.
    + intros w'. destruct (Nat.eq_dec w' w) as [->|Ne].
      * rewrite upd_same. destruct b; exact Logic.I.
      * rewrite upd_other by exact Ne. eapply pc_ok_ext; [intros u; apply (R1 (Some u))|intros u; apply (R3 (Some u))|reflexivity|apply I5].
  - apply goto_inv; [exact I|congruence|].
    destruct (check_cases _ _ _ w I1) as [->|[->| ->]]; cbn; auto.
  - destruct (c_lock s) as [l|] eqn:El; [exact I|].
    inversion I1 as [V F|m V F| | | | |]; subst.
    + rewrite V. cbn [ver_current]. rewrite (write_info_0 w). cbn [fst snd app].
      split; cbn [c_fs c_pc c_lock]; auto.
      * eapply is_w0; [apply upd_same|exact F].
      * intros w'. destruct (Nat.eq_dec w' w) as [->|Ne]; [rewrite upd_same; reflexivity|rewrite upd_other by exact Ne].
        pose proof (I5 w') as P'. destruct (c_pc s w'); auto. cbn in P'. congruence.
    + rewrite V. cbn [ver_current]. unfold read_info. rewrite F. cbn [deserialize].
      rewrite <- El. apply goto_inv; [exact I|congruence|reflexivity].
  - cbn in Pw. rewrite Pw in I1. destruct rest as [|o rest].
    + inversion I1; subst; try congruence. split; cbn [c_fs c_pc c_lock]; auto.
      * eapply is_done; eauto.
      * intros w'. destruct (Nat.eq_dec w' w) as [->|Ne]; [rewrite upd_same; cbn; apply Ha|rewrite upd_other by exact Ne].
        pose proof (I5 w') as P'. destruct (c_pc s w'); auto. cbn in P'. congruence.
    + assert (SR : same_rest (c_fs s) (do_iop (c_fs s) o)).
      { inversion I1; subst; try congruence;
          match goal with E : c_pc s w = PInfoW _ |- _ => rewrite Ew in E; inversion E; subst end;
          destruct (c_fs s); unfold same_rest; cbn; auto 10. }
      destruct (rest_state _ _ SR) as (R1 & R2 & R3).
      split; cbn [c_fs c_pc c_lock].
      * rewrite Pw. inversion I1; subst; try congruence;
          match goal with E : c_pc s w = PInfoW _ |- _ => rewrite Ew in E; inversion E; subst end;
          destruct (c_fs s); cbn in *; subst;
          [eapply is_w1|eapply is_w2|eapply is_w3|eapply is_w4]; try (apply upd_same); reflexivity.
      * destruct I2 as [v I2]; eauto.
      * auto.
      * destruct I4 as [v I4]; eauto.
      * intros w'. destruct (Nat.eq_dec w' w) as [->|Ne]; [rewrite upd_same; exact Pw|rewrite upd_other by exact Ne].
        eapply pc_ok_ext; [intros u; apply (R1 (Some u))|intros u; apply (R3 (Some u))|reflexivity|apply I5].
  - cbn in Pw. destruct (open_seed_spec (c_fs s) w (c_next s) I2) as (v & E & H). cbv zeta in H. rewrite E.
    destruct H as (H1 & H2 & H0 & H3 & H4 & H5 & H6 & H7).
    set (y := do_iops (c_fs s) (fst (open_seed (c_fs s) (a w) (c_next s)))) in *.
    assert (Ho : forall o, opt_state (c_fs s) o -> opt_state y o).
    { intros [o|]; unfold opt_state; rewrite ?H6; [|auto]. intros [[m V] F]. split; [exists m; congruence|congruence]. }
    assert (Nl : c_lock s <> Some w) by (intros El; rewrite El in I1; inversion I1; congruence).
    split; cbn [c_fs c_pc c_lock].
    + eapply info_state_ext; [apply info_state_upd; eassumption|apply H3|apply H3].
    + eauto.
    + unfold err_state. rewrite H4, H5. exact I3.
    + destruct I4 as [o I4]; eauto.
    + intros w'. destruct (Nat.eq_dec w' w) as [->|Ne]; [rewrite upd_same; cbn; auto|rewrite upd_other by exact Ne].
      eapply pc_ok_ext; [apply H2|intros o; apply (Ho (Some o))|reflexivity|apply I5].
  - cbn in Pw. destruct (open_err_spec (c_fs s) (c_next s) I3) as (E & H). cbv zeta in H. rewrite E.
    destruct H as (H1 & H0 & H3 & H4 & H5 & H6 & H7 & H8 & H9).
    set (y := do_iops (c_fs s) (fst (open_err (c_fs s) (c_next s)))) in *.
    assert (Hs : forall v, seed_state (c_fs s) v -> seed_state y v).
    { intros [u|]; unfold seed_state; [|congruence]. intros ((m & V) & A & B & C).
      split; [exists m; congruence|]. split; [congruence|]. split; congruence. }
    assert (Ho : forall o, opt_state (c_fs s) o -> opt_state y o).
    { intros [o|]; unfold opt_state; [|congruence]. intros [[m V] F]. split; [exists m; congruence|congruence]. }
    assert (Nl : c_lock s <> Some w) by (intros El; rewrite El in I1; inversion I1; congruence).
    split; cbn [c_fs c_pc c_lock].
    + eapply info_state_ext; [apply info_state_upd; eassumption|apply H3|apply H3].
    + destruct I2 as [u I2]; eauto.
    + exact H1.
    + destruct I4 as [o I4]; eauto.
    + intros w'. destruct (Nat.eq_dec w' w) as [->|Ne]; [rewrite upd_same; cbn|rewrite upd_other by exact Ne].
      * destruct Pw. split; [assumption|]. split; [|reflexivity]. apply (Hs (Some v)); assumption.
      * eapply pc_ok_ext; [intros u; apply (Hs (Some u))|intros o; apply (Ho (Some o))|reflexivity|apply I5].
  - cbn in Pw. destruct (open_opt_spec (c_fs s) w (c_next s) I4) as (o & E & H). cbv zeta in H. rewrite E.
    destruct H as (H1 & H2 & H0 & H3 & H4 & H5 & H6 & H7 & H8 & H9).
    set (y := do_iops (c_fs s) (fst (open_opt (c_fs s) (a w) (c_next s)))) in *.
    assert (Hs : forall v, seed_state (c_fs s) v -> seed_state y v).
    { intros [u|]; unfold seed_state; [|congruence]. intros ((m & V) & A & B & C).
      split; [exists m; congruence|]. split; [congruence|]. split; congruence. }
    assert (Nl : c_lock s <> Some w) by (intros El; rewrite El in I1; inversion I1; congruence).
    split; cbn [c_fs c_pc c_lock].
    + eapply info_state_ext; [apply info_state_upd; eassumption|apply H3|apply H3].
    + destruct I2 as [u I2]; eauto.
    + unfold err_state. rewrite H4, H5. exact I3.
    + eauto.
    + intros w'. destruct (Nat.eq_dec w' w) as [->|Ne]; [rewrite upd_same; cbn|rewrite upd_other by exact Ne].
      * destruct Pw as (P1 & P2 & P3). split; [exact P1|]. split; [apply (Hs (Some v)), P2|]. auto.
      * eapply pc_ok_ext; [intros u; apply (Hs (Some u))|apply H2|reflexivity|apply I5].
  - exact I.
  - exact I.
Qed.

Lemma cinit_inv : cinv c_init.
Proof.
  split; cbn.
  - apply is_none; reflexivity.
  - exists None. reflexivity.
  - left. reflexivity.
  - exists None. reflexivity.
  - auto.
Qed.

Lemma crun_inv ws : forall s, cinv s -> cinv (crun a s ws).
Proof.
  induction ws as [|w ws IH]; intros s I; [exact I|].
  change (crun a s (w :: ws)) with (crun a (cstep a s w) ws). apply IH, cstep_inv, I.
Qed.

(** Processes past the check, or that need none, do not fail. *)
Definition past (p : pc) : Prop :=
  match p with PCheck | PMkdir false | PRead | PFail _ => False | _ => True end.

Lemma past_step s w w' : cinv s -> past (c_pc s w') -> past (c_pc (cstep a s w) w').
Proof.
  intros I P. pose proof I as [I1 I2 I3 I4 I5].
  destruct (Nat.eq_dec w' w) as [->|Ne].
  - unfold cstep. destruct (c_pc s w) as [|b| | |rest|i|i v|i v e|r|e] eqn:Ew; try destruct P; cbn [c_pc].
    + rewrite upd_same. destruct b; [exact Logic.I|destruct P].
    + destruct (c_lock s) as [l|] eqn:El; [rewrite Ew; exact Logic.I|].
      inversion I1 as [V F|m V F| | | | |]; subst; rewrite V; cbn [ver_current].
      * rewrite (write_info_0 w). cbn. rewrite upd_same. exact Logic.I.
      * unfold read_info. rewrite F. cbn. rewrite upd_same. exact Logic.I.
    + destruct rest; cbn [c_pc]; rewrite upd_same; exact Logic.I.
    + destruct (open_seed_spec (c_fs s) w (c_next s) I2) as (v & E & _). rewrite E, upd_same. exact Logic.I.
    + destruct (open_err_spec (c_fs s) (c_next s) I3) as (E & _). rewrite E, upd_same. exact Logic.I.
    + destruct (open_opt_spec (c_fs s) w (c_next s) I4) as (o & E & _). rewrite E, upd_same. exact Logic.I.
    + rewrite Ew. exact Logic.I.
  - assert (E : c_pc (cstep a s w) w' = c_pc s w'); [|rewrite E; exact P].
    unfold cstep. destruct (c_pc s w) as [|b| | |rest|i|i v|i v e|r|e]; cbn [c_pc]; try (apply upd_other; exact Ne); auto.
    + destruct (c_lock s); auto. destruct (ver_current (v_info (c_fs s))); [apply upd_other; exact Ne|].
      destruct (snd (write_info (a_info (a w)))); apply upd_other; exact Ne.
    + destruct rest; apply upd_other; exact Ne.
Qed.

Lemma past_run ws w' : forall s, cinv s -> past (c_pc s w') -> past (c_pc (crun a s ws) w').
Proof.
  induction ws as [|w ws IH]; intros s I P; [exact P|].
  change (crun a s (w :: ws)) with (crun a (cstep a s w) ws). apply IH; [apply cstep_inv, I|apply past_step; assumption].
Qed.

(** Once the description is complete on disk nobody fails any more. *)
Lemma info_stays s w : cinv s -> f_info (c_fs s) = Full i0 -> f_info (c_fs (cstep a s w)) = Full i0.
Proof.
  intros I F. pose proof I as [I1 I2 I3 I4 I5]. pose proof (I5 w) as Pw. unfold cstep.
  destruct (c_pc s w) as [|b| | |rest|i|i v|i v e|r|e] eqn:Ew; cbn [c_fs]; try exact F.
  - destruct (c_fs s); exact F.
  - destruct (c_lock s); [exact F|]. destruct (ver_current (v_info (c_fs s))); [exact F|].
    destruct (snd (write_info (a_info (a w)))); exact F.
  - destruct rest as [|o rest]; [exact F|]. cbn [c_fs]. cbn in Pw. rewrite Pw in I1. inversion I1; subst; congruence.
  - destruct (open_seed_spec (c_fs s) w (c_next s) I2) as (v & E & H). cbv zeta in H.
    destruct H as (_ & _ & _ & [_ H] & _). congruence.
  - destruct (open_err_spec (c_fs s) (c_next s) I3) as (E & H). cbv zeta in H.
    destruct H as (_ & _ & [_ H] & _). congruence.
  - destruct (open_opt_spec (c_fs s) w (c_next s) I4) as (o & E & H). cbv zeta in H.
    destruct H as (_ & _ & _ & [_ H] & _). congruence.
Qed.

Lemma late_run ws w' : forall s, cinv s -> f_info (c_fs s) = Full i0 -> not_failed (c_pc s w') ->
  not_failed (c_pc (crun a s ws) w').
Proof.
  induction ws as [|w ws IH]; intros s I F N; [exact N|].
  change (crun a s (w :: ws)) with (crun a (cstep a s w) ws).
  apply IH; [apply cstep_inv, I|apply info_stays; assumption|].
  assert (D : past (c_pc s w') \/ ~ past (c_pc s w')).
  { destruct (c_pc s w') as [|[|]| | |rest|i|i v|i v e|r|e]; cbn; tauto. }
  destruct D as [D|D].
  - pose proof (past_step s w w' I D) as P. intros e E. rewrite E in P. exact P.
  - destruct (Nat.eq_dec w' w) as [->|Ne].
    + unfold cstep. destruct (c_pc s w) as [|[|]| | |rest|i|i v|i v e|r|e] eqn:Ew; cbn in D; try tauto; cbn [c_pc]; rewrite ?upd_same.
      * discriminate.
      * discriminate.
      * unfold check_info, read_info. rewrite F. cbn -[py_eqb]. rewrite Ha, (proj2 Hp). discriminate.
      * intros e' E. apply (N e'). congruence.
    + assert (E : c_pc (cstep a s w) w' = c_pc s w'); [|rewrite E; exact N].
      unfold cstep. destruct (c_pc s w) as [|b| | |rest|i|i v|i v e|r|e]; cbn [c_pc]; try (apply upd_other; exact Ne); auto.
      * destruct (c_lock s); auto. destruct (ver_current (v_info (c_fs s))); [apply upd_other; exact Ne|].
        destruct (snd (write_info (a_info (a w)))); apply upd_other; exact Ne.
      * destruct rest; apply upd_other; exact Ne.
Qed.

Lemma early_lemma ws1 w ws2 : c_pc (crun a c_init ws1) w = PCheck -> d_exists (c_fs (crun a c_init ws1)) = false ->
  not_failed (c_pc (crun a c_init (ws1 ++ w :: ws2)) w).
Proof.
  intros E D. unfold crun. rewrite fold_left_app. fold (crun a c_init ws1). cbn [fold_left].
  set (s := crun a c_init ws1) in *. assert (I : cinv s) by (apply crun_inv, cinit_inv).
  fold (crun a (cstep a s w) ws2). assert (P : past (c_pc (cstep a s w) w)).
  { unfold cstep. rewrite E. cbn [c_pc]. rewrite upd_same, D. exact Logic.I. }
  pose proof (past_run ws2 w _ (cstep_inv _ _ I) P) as Q. intros e X. rewrite X in Q. exact Q.
Qed.

Lemma late_lemma ws1 w ws2 : c_pc (crun a c_init ws1) w = PCheck ->
  f_info (c_fs (crun a c_init ws1)) = Full i0 ->
  not_failed (c_pc (crun a c_init (ws1 ++ ws2)) w).
Proof.
  intros E D. unfold crun. rewrite fold_left_app. fold (crun a c_init ws1). cbn [fold_left].
  apply late_run; [apply crun_inv, cinit_inv|exact D|]. rewrite E. discriminate.
Qed.

Lemma agree_lemma ws w1 w2 r1 r2 : c_pc (crun a c_init ws) w1 = PDone r1 -> c_pc (crun a c_init ws) w2 = PDone r2 ->
  r1 = r2 /\ n_info r1 = i0 /\ n_err r1 = [].
Proof.
  intros E1 E2. assert (I : cinv (crun a c_init ws)) by (apply crun_inv, cinit_inv).
  pose proof (ci_pc _ I w1) as P1. pose proof (ci_pc _ I w2) as P2. rewrite E1 in P1. rewrite E2 in P2.
  cbn in P1, P2. destruct P1 as (A1 & (_ & B1 & B2 & B3) & C1 & _ & D1), P2 as (A2 & (_ & B4 & B5 & B6) & C2 & _ & D2).
  split; [|auto]. destruct r1 as [i1 [p1 q1 n1] e1 o1], r2 as [i2 [p2 q2 n2] e2 o2]; cbn in *. congruence.
Qed.

Lemma fail_lemma ws w e : c_pc (crun a c_init ws) w = PFail e -> e = FileNotFoundError \/ e = TypeError.
Proof.
  intros E. assert (I : cinv (crun a c_init ws)) by (apply crun_inv, cinit_inv).
  pose proof (ci_pc _ I w) as P. rewrite E in P. exact P.
Qed.
End Conc.
