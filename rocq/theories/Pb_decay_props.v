(** C39: PriorBand's decaying weights of the prior. *)
From Verif Require Import Pb_args_proofs Sh_play_proofs.
Open Scope nat_scope.

(** C39 for the decay style and a float fidelity: OverflowError once 1024 times
    eta * max_budget are spent. *)
Theorem decay_weights_overflow :
  forall lg (H : Type) argsort (default : H) score dist argmin_strings f eta s b0 b o ts tb t how rung budget,
  never_above lg -> legal f -> 2 <= eta -> make_bracket lg f eta s = Ok b0 ->
  observe o (b_min b0) (b_max b0) ts = Ok tb ->
  (forall r, b_min b0 <= r <= b_max b0 -> nget r (b_rungs b0) = Some (budget r)) ->
  f_int f = false -> (1024 * (qnat eta * f_upper f) <= spent budget (t_rows tb))%Q ->
  t <> OtherType -> (t = Linear -> rung <= b_max b0 - b_min b0) ->
  pb_args argsort default score dist argmin_strings o t Decay how f eta b0 b ts rung = Err OverflowError.
Proof. exact decay_overflow. Qed.
Print Assumptions decay_weights_overflow.
Definition ffid : fidelity := mkFid 1 4 false.
(** [n] finished evaluations at rung 2. *)
Definition many_trial (i : nat) : strial nat := mkST (i, 2) 10 (inject_Z 4) (Loss (FZ 1)) None.
Definition many_row (i : nat) : row nat := mkRow i 10 (inject_Z 4) 2 (PNum (FZ 1)).
Definition many (n : nat) : list (strial nat) := map many_trial (seq 0 n).
Definition mopt : options := mkOpt false None false false false true.
Lemma many_find : forall k n, find_row (k + n) (map many_row (seq k n)) = None.
Proof.
  intros k n. destruct (find_row (k + n) (map many_row (seq k n))) as [x|] eqn:F; auto.
  apply find_some in F. destruct F as [I E]. apply in_map_iff in I. destruct I as (i & <- & I).
  apply in_seq in I. apply Nat.eqb_eq in E. cbn in E. lia.
Qed.
Lemma many_insert : forall n k m, k + n <= m -> insert_row (many_row m) (map many_row (seq k n)) = map many_row (seq k n) ++ [many_row m].
Proof.
  induction n as [|n IH]; intros k m L; auto. cbn [seq map insert_row app].
  cbn [r_id many_row]. destruct (Nat.ltb_spec m k); [lia|]. f_equal. apply IH. lia.
Qed.
Lemma many_load : forall n k, load_previous mopt 0 2 (mkTab (map many_row (seq 0 k)) false) (map many_trial (seq k n))
  = Ok (mkTab (map many_row (seq 0 (k + n))) false).
Proof.
  induction n as [|n IH]; intros k; [rewrite Nat.add_0_r; reflexivity|]. cbn [seq map load_previous].
  unfold load_one. cbn [st_id many_trial st_out get_loss bind t_rows t_obj]. pose proof (many_find 0 k) as MF; cbn [Nat.add] in MF; rewrite MF; clear MF.
  cbn [Nat.leb andb bind is_err orb]. change (st_hps (many_trial k)) with 10. change (st_fid (many_trial k)) with (inject_Z 4).
  change (mkRow k 10 (inject_Z 4) 2 (PNum (FZ 1))) with (many_row k). rewrite many_insert by lia.
  replace (map many_row (seq 0 k) ++ [many_row k]) with (map many_row (seq 0 (S k))) by (rewrite seq_S, map_app; reflexivity).
  rewrite IH. f_equal. f_equal. f_equal. f_equal. lia.
Qed.
Lemma many_observe : forall n, observe mopt 0 2 (many n) = Ok (mkTab (map many_row (seq 0 n)) false).
Proof.
  intros n. unfold observe, many.
  assert (F : forall l, filter (fun t => negb (is_pending t)) (map many_trial l) = map many_trial l /\
                        filter is_pending (map many_trial l) = []).
  { induction l as [|i l [A B]]; [split; reflexivity|]. split; cbn; [f_equal; exact A|exact B]. }
  destruct (F (seq 0 n)) as [-> ->]. pose proof (many_load n 0) as ML; cbn [seq map Nat.add] in ML; rewrite ML. reflexivity.
Qed.
Definition mbudget (r : nat) : Q := match r with 0 => 4 # 4 | 1 => 4 # 2 | _ => 4 end.
Lemma many_spent : forall n k, (spent mbudget (map many_row (seq k n)) == inject_Z 4 * inject_Z (Z.of_nat n))%Q.
Proof.
  induction n as [|n IH]; intros k; [reflexivity|].
  change (spent mbudget (map many_row (seq k (S n)))) with (4 + spent mbudget (map many_row (seq (S k) n)))%Q.
  rewrite IH, Nat2Z.inj_succ, <- Z.add_1_r, inject_Z_plus. ring.
Qed.
Example decay_weights_overflow_example : exists b tb, never_above exact_log /\ legal ffid /\
  make_bracket exact_log ffid 2 0 = Ok b /\ observe mopt (b_min b) (b_max b) (many (Z.to_nat 2048)) = Ok tb /\
  (forall r, b_min b <= r <= b_max b -> nget r (b_rungs b) = Some (mbudget r)) /\ f_int ffid = false /\
  (1024 * (qnat 2 * f_upper ffid) <= spent mbudget (t_rows tb))%Q.
Proof.
  eexists. eexists. split; [exact (exact_below exact_log exact_log_exact)|].
  split; [split; [reflexivity|split; [reflexivity|discriminate]]|].
  split; [vm_compute; reflexivity|]. cbn [b_min b_max b_rungs t_rows]. split; [apply many_observe|].
  split.
  { intros [|[|[|r]]] L; [reflexivity|reflexivity|reflexivity|lia]. }
  split; [reflexivity|]. cbn [t_rows]. rewrite many_spent, Z2Nat.id by lia. vm_compute. discriminate.
Qed.
