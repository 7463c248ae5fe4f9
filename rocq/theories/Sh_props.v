(** C31 - C36, C64, C65: successive halving, ASHA, Hyperband, asynchronous Hyperband. *)
From Coq Require Import Lqa.
From Verif Require Import Sh_play_proofs.
Open Scope nat_scope.

(** ** Material for the examples: fidelity 1..4, eta 2, so rungs 0, 1, 2 with 4, 2, 1
    places; losses 3, 1, 2, 5 of the configurations 0, 1, 2, 3 *)
Definition fid4 : fidelity := mkFid 1 4 true.
Definition plain : options := mkOpt false None false false false true.
Definition demo_ask (k : kind) (o : options) := ask (H := nat) insertion_argsort exact_log k o fid4 2.
Definition four : list event :=
  [Asked 10 0; Asked 11 0; Reported (0, 0) (Loss (FZ 3)); Asked 12 0; Reported (1, 0) (Loss (FZ 1));
   Asked 13 0; Reported (3, 0) (Loss (FZ 5)); Reported (2, 0) (Loss (FZ 2))].
Definition four_trials : list (strial nat) :=
  [mkST (3, 0) 13 1 (Loss (FZ 5)) None; mkST (2, 0) 12 1 (Loss (FZ 2)) None;
   mkST (1, 0) 11 1 (Loss (FZ 1)) None; mkST (0, 0) 10 1 (Loss (FZ 3)) None].
Lemma fid4_legal : legal fid4.
Proof. split; [reflexivity|split; [reflexivity|]]. intros _. split; [exists 1%Z|exists 4%Z]; reflexivity. Qed.
Lemma fid4_log : whole_log 2 (f_upper fid4 / f_lower fid4) (Z.of_nat 2).
Proof. split; [lia|split; vm_compute; [discriminate|reflexivity]]. Qed.
Lemma four_history : history (demo_ask (SuccessiveHalving 0) plain) four_trials.
Proof. apply (play_history _ four []); [constructor|vm_compute; reflexivity]. Qed.
Lemma four_bracket : brackets_of exact_log (SuccessiveHalving 0) fid4 2
  [mkB [(2, inject_Z 4); (1, inject_Z 2); (0, inject_Z 1)] [(0, 4); (1, 2); (2, 1)] 0 2].
Proof. eexists. split; [vm_compute; reflexivity|reflexivity]. Qed.

(** C31: an ask never returns an id that exists: all four optimizers, any logarithm, any
    sorting, any order of the trials. *)
Theorem ids_never_reused : forall (H : Type) argsort lg k o f eta ts ts' (fresh : H) draw q,
  history (ask argsort lg k o f eta) ts -> Permutation ts ts' ->
  ask argsort lg k o f eta ts' fresh draw = Ok q ->
  forall t, In t ts -> st_id t <> q_id q.
Proof.
  intros H argsort lg k o f eta ts ts' fresh draw q HI P A t I D.
  apply (new_ids_lemma argsort lg k o f eta ts ts' fresh draw q HI P A). rewrite <- D. apply in_map. exact I.
Qed.
Print Assumptions ids_never_reused.
Example ids_never_reused_example :
  history (demo_ask (SuccessiveHalving 0) plain) four_trials /\
  demo_ask (SuccessiveHalving 0) plain (rev four_trials) 14 0 = Ok (mkProp (1, 1) 11 (inject_Z 2) (Some (1, 0))).
Proof. split; [exact four_history|vm_compute; reflexivity]. Qed.

(** C32: a promoted trial names an existing, finished trial one rung below with the same
    hyperparameters, no two trials name the same one, and a trial that names none is the
    lowest of its configuration. *)
Theorem promotion_continues : forall (H : Type) argsort lg k o f eta (ts : list (strial H)),
  history (ask argsort lg k o f eta) ts ->
  (forall t p, In t ts -> st_prev t = Some p ->
     st_id t = (fst p, S (snd p)) /\
     exists u, In u ts /\ st_id u = p /\ finished u /\ st_out u <> Loss FNaN /\ st_hps u = st_hps t) /\
  (forall t u p, In t ts -> In u ts -> st_prev t = Some p -> st_prev u = Some p -> t = u) /\
  (forall t, In t ts -> st_prev t = None -> forall u, In u ts -> fst (st_id u) = fst (st_id t) -> u <> t ->
     snd (st_id t) < snd (st_id u)).
Proof.
  intros H argsort lg k o f eta ts HI. destruct (promo_lemma argsort lg k o f eta ts HI) as (A & B & C).
  split; [|split; [exact B|exact C]]. intros t p I P. destruct (A t p I P) as (D & u & U & UD & UF & UH).
  split; [exact D|]. exists u. repeat (split; [assumption|]). split; [|exact UH].
  exact (pred_num argsort lg k o f eta ts HI t u p I U P UD).
Qed.
Print Assumptions promotion_continues.
(** C32: every trial's fidelity is the budget of its rung (when the logarithm is exact). *)
Theorem promotion_fidelity : forall (H : Type) argsort lg k o f eta L (ts : list (strial H)),
  exact lg -> legal f -> 2 <= eta -> whole_log eta (f_upper f / f_lower f) (Z.of_nat L) ->
  history (ask argsort lg k o f eta) ts ->
  forall t, In t ts -> rung_budget f eta L (snd (st_id t)) (st_fid t).
Proof.
  intros H argsort lg k o f eta L ts X LG E WL HI t I. exact (fid_lemma argsort lg k o f eta ts X LG E HI t L WL I).
Qed.
Print Assumptions promotion_fidelity.
Example promotion_example : legal fid4 /\ exact exact_log /\ whole_log 2 (f_upper fid4 / f_lower fid4) (Z.of_nat 2) /\
  history (demo_ask Hyperband plain)
    (mkST (2, 1) 12 (inject_Z 2) Pending (Some (2, 0)) :: mkST (1, 1) 11 (inject_Z 2) Pending (Some (1, 0)) :: four_trials).
Proof.
  split; [exact fid4_legal|]. split; [exact exact_log_exact|]. split; [exact fid4_log|].
  apply (play_history _ (four ++ [Asked 14 0; Asked 15 0]) []); [constructor|vm_compute; reflexivity].
Qed.

(** C33: an asynchronous promotion is from a rung below the top where at least eta
    configurations wait; it takes a best one of those waiting there, and nowhere higher do
    eta configurations wait.  A new configuration is only started when no eta
    configurations wait anywhere from the drawn bracket's lowest rung on. *)
Theorem asynchronous_promotion : forall (H : Type) argsort lg k o f eta L ts ts' (fresh : H) draw low q,
  sorts argsort -> exact lg -> legal f -> 2 <= eta ->
  whole_log eta (f_upper f / f_lower f) (Z.of_nat L) -> o_ignore_errors o = false ->
  history (ask argsort lg k o f eta) ts -> Permutation ts ts' -> lowest k draw = Some low ->
  ask argsort lg k o f eta ts' fresh draw = Ok q ->
  match q_prev q with
  | Some (c, r) =>
      r < L /\ crowd o ts' eta r /\
      (exists v, takes_part o c /\ waits o ts' r c v /\
         forall c' v', takes_part o c' -> waits o ts' r c' v' -> fl_ltb v' v = false) /\
      forall r', r < r' < L -> ~ crowd o ts' eta r'
  | None => forall r', low <= r' < L -> ~ crowd o ts' eta r'
  end.
Proof.
  intros H argsort lg k o f eta L ts ts' fresh draw low q SO X LG E WL IG HI P LO A.
  exact (async_lemma o argsort lg k f eta ts' fresh draw q L low SO X LG E WL IG
           (wf_perm ts ts' P (history_wf argsort lg k o f eta ts HI)) LO A).
Qed.
Print Assumptions asynchronous_promotion.
Definition two_trials : list (strial nat) :=
  [mkST (1, 0) 11 1 (Loss (FZ 1)) None; mkST (0, 0) 10 1 (Loss (FZ 3)) None].
Definition two : list event :=
  [Asked 10 0; Asked 11 0; Reported (0, 0) (Loss (FZ 3)); Reported (1, 0) (Loss (FZ 1))].
Example asynchronous_promotion_example : sorts insertion_argsort /\ exact exact_log /\
  history (demo_ask (ASHA 0) plain) two_trials /\ lowest (ASHA 0) 0 = Some 0 /\
  demo_ask (ASHA 0) plain two_trials 12 0 = Ok (mkProp (1, 1) 11 (inject_Z 2) (Some (1, 0))).
Proof.
  split; [exact insertion_sorts|]. split; [exact exact_log_exact|].
  split; [apply (play_history _ two []); [constructor|vm_compute; reflexivity]|].
  split; [reflexivity|vm_compute; reflexivity].
Qed.

(** C33 counted over all configurations ever evaluated at the rung (as ASHA is published)
    is false: of 3 configurations at rung 0 with eta = 2, two get promoted. *)
Theorem asynchronous_promotion_all_evaluated_refuted : exists (ts : list (strial nat)) eta,
  history (ask insertion_argsort exact_log (ASHA 0) plain fid4 eta) ts /\ 2 <= eta /\
  length (filter (fun t => Nat.eqb (snd (st_id t)) 0) ts) / eta <
  length (filter (fun t => match st_prev t with Some (_, 0) => true | _ => false end) ts).
Proof.
  exists [mkST (2, 1) 12 (inject_Z 2) Pending (Some (2, 0)); mkST (2, 0) 12 1 (Loss (FZ 2)) None;
          mkST (1, 1) 11 (inject_Z 2) Pending (Some (1, 0));
          mkST (1, 0) 11 1 (Loss (FZ 1)) None; mkST (0, 0) 10 1 (Loss (FZ 3)) None], 2.
  split; [|split; [lia|vm_compute; lia]].
  apply (play_history _ (two ++ [Asked 12 0; Asked 12 0; Reported (2, 0) (Loss (FZ 2)); Asked 13 0]) []);
    [constructor|vm_compute; reflexivity].
Qed.
Print Assumptions asynchronous_promotion_all_evaluated_refuted.

(** C33 with ignore_errors: configurations that failed get promoted when nothing else
    waits at the rung. *)
Definition ignoring : options := mkOpt true None false false false true.
Theorem failed_not_promoted_refuted : exists (ts : list (strial nat)) q c r,
  history (demo_ask (ASHA 0) ignoring) ts /\ demo_ask (ASHA 0) ignoring ts 12 0 = Ok q /\
  q_prev q = Some (c, r) /\ exists t, In t ts /\ st_id t = (c, r) /\ st_out t = Failed.
Proof.
  exists [mkST (1, 0) 11 1 Failed None; mkST (0, 0) 10 1 Failed None], (mkProp (0, 1) 10 (inject_Z 2) (Some (0, 0))), 0, 0.
  split; [|split; [vm_compute; reflexivity|split; [reflexivity|]]].
  - apply (play_history _ [Asked 10 0; Asked 11 0; Reported (0, 0) Failed; Reported (1, 0) Failed] []);
      [constructor|vm_compute; reflexivity].
  - eexists. split; [right; left; reflexivity|split; reflexivity].
Qed.
Print Assumptions failed_not_promoted_refuted.

(** C34: a synchronous promotion from rung r is within a bracket whose rung r has exactly
    its configured number of evaluations, all finished; the promoted configuration has
    fewer than z' configurations of the bracket strictly better than it at that rung, z'
    being the number of places at the next rung (so r is not the highest rung). *)
Theorem synchronous_promotion : forall (H : Type) argsort lg k o f eta bs ts ts' (fresh : H) draw q c r,
  exact lg -> legal f -> 2 <= eta -> sorts argsort -> o_ignore_errors o = false ->
  brackets_of lg k f eta bs ->
  history (ask argsort lg k o f eta) ts -> Permutation ts ts' ->
  ask argsort lg k o f eta ts' fresh draw = Ok q -> q_prev q = Some (c, r) ->
  exists n b s w z z', nth_bracket bs (first_number o) n b s /\ width b w /\
    nget r (b_sizes b) = Some z /\ nget (S r) (b_sizes b) = Some z' /\ s <= c < s + w /\
    evaluations ts s w r = z /\
    (forall t, In t ts -> s <= fst (st_id t) < s + w -> snd (st_id t) = r -> finished t) /\
    exists t0 v0, In t0 ts /\ st_id t0 = (c, r) /\ ranks o (st_out t0) v0 /\ v0 <> FNaN /\
      forall B, NoDup B -> (forall c', In c' B -> s <= c' < s + w /\
         exists t' v', In t' ts /\ st_id t' = (c', r) /\ ranks o (st_out t') v' /\ fl_ltb v' v0 = true) ->
      length B < z'.
Proof.
  intros H argsort lg k o f eta bs ts ts' fresh draw q c r X LG E SO IG BR HI P A PV.
  exact (full_run_lemma argsort lg k o f eta bs ts ts' fresh draw q c r X LG E SO IG BR HI P A PV).
Qed.
Print Assumptions synchronous_promotion.
Example synchronous_promotion_example :
  history (demo_ask (SuccessiveHalving 0) plain) four_trials /\
  (exists bs, brackets_of exact_log (SuccessiveHalving 0) fid4 2 bs) /\
  demo_ask (SuccessiveHalving 0) plain four_trials 14 0 = Ok (mkProp (1, 1) 11 (inject_Z 2) (Some (1, 0))).
Proof. split; [exact four_history|]. split; [eexists; exact four_bracket|vm_compute; reflexivity]. Qed.

(** C35: what the table holds. *)
Theorem table_content : forall (H : Type) argsort lg k o f eta lo hi (ts : list (strial H)) tb,
  history (ask argsort lg k o f eta) ts -> observe o lo hi ts = Ok tb ->
  (exists n, map r_id (t_rows tb) = seq 0 n) /\
  (forall t, In t ts -> exists x, In x (t_rows tb) /\ r_id x = fst (st_id t)) /\
  (forall x, In x (t_rows tb) -> settled_row o ts x \/ pending_row ts x).
Proof.
  intros H argsort lg k o f eta lo hi ts tb HI E.
  exact (content_lemma o ts lo hi tb (history_wf argsort lg k o f eta ts HI) E).
Qed.
Print Assumptions table_content.
(** C35: the order in which trials are listed changes neither the table ... *)
Theorem table_order : forall (H : Type) argsort lg k o f eta lo hi (ts ts' : list (strial H)) tb,
  history (ask argsort lg k o f eta) ts -> Permutation ts ts' -> observe o lo hi ts = Ok tb ->
  exists tb', observe o lo hi ts' = Ok tb' /\ t_rows tb' = t_rows tb.
Proof.
  intros H argsort lg k o f eta lo hi ts ts' tb HI P E.
  destruct (order_lemma o lo hi ts ts' tb (wf_orderly ts (history_wf argsort lg k o f eta ts HI)) P E) as (tb' & A & B & _).
  exists tb'. split; [exact A|exact B].
Qed.
Print Assumptions table_order.
(** ... nor the answer. *)
Theorem answer_order : forall (H : Type) argsort lg k o f eta (ts ts' : list (strial H)) fresh draw q,
  history (ask argsort lg k o f eta) ts -> Permutation ts ts' ->
  (o_ignore_errors o = false \/ match k with SuccessiveHalving _ | Hyperband => False | _ => True end) ->
  ask argsort lg k o f eta ts fresh draw = Ok q -> ask argsort lg k o f eta ts' fresh draw = Ok q.
Proof.
  intros H argsort lg k o f eta ts ts' fresh draw q HI P C A.
  exact (ask_order_lemma o argsort lg k f eta ts ts' fresh draw q (wf_orderly ts (history_wf argsort lg k o f eta ts HI)) P C A).
Qed.
Print Assumptions answer_order.
Definition five_trials : list (strial nat) := mkST (1, 1) 11 (inject_Z 2) Pending (Some (1, 0)) :: four_trials.
Example table_example : history (demo_ask (SuccessiveHalving 0) plain) five_trials /\
  observe plain 0 2 five_trials =
    Ok (mkTab [mkRow 0 10 1 0 (PNum (FZ 3)); mkRow 1 11 1 1 (PNum FNaN); mkRow 2 12 1 0 (PNum (FZ 2));
               mkRow 3 13 1 0 (PNum (FZ 5))] false) /\
  observe plain 0 2 (rev five_trials) = observe plain 0 2 five_trials /\
  demo_ask (SuccessiveHalving 0) plain five_trials 14 0 = Ok (mkProp (2, 1) 12 (inject_Z 2) (Some (2, 0))).
Proof.
  split; [|split; [|split]; vm_compute; reflexivity].
  apply (play_history _ (four ++ [Asked 14 0]) []); [constructor|vm_compute; reflexivity].
Qed.

(** C36: no run ever starts more evaluations at a rung of a bracket than configured. *)
Theorem bracket_never_overfull : forall (H : Type) argsort lg k o f eta bs (ts : list (strial H)) n b s w r z,
  exact lg -> legal f -> 2 <= eta -> brackets_of lg k f eta bs ->
  history (ask argsort lg k o f eta) ts -> nth_bracket bs (first_number o) n b s -> width b w ->
  nget r (b_sizes b) = Some z -> evaluations ts s w r <= z.
Proof.
  intros H argsort lg k o f eta bs ts n b s w r z X LG E BR HI N W Z.
  exact (size_lemma argsort lg k o f eta bs ts n b s w r z X LG E BR HI N W Z).
Qed.
Print Assumptions bracket_never_overfull.
Example bracket_never_overfull_example :
  (exists bs b, brackets_of exact_log (SuccessiveHalving 0) fid4 2 bs /\ nth_bracket bs (first_number plain) 0 b 0 /\
     width b 4 /\ nget 0 (b_sizes b) = Some 4) /\
  evaluations five_trials 0 4 0 = 4 /\ evaluations five_trials 0 4 1 = 1.
Proof.
  split; [|split; reflexivity]. eexists _, _. split; [exact four_bracket|]. split; [constructor; reflexivity|split; reflexivity].
Qed.

(** C64: on any state it can get into, an optimizer gives an answer: no KeyError,
    IndexError, TypeError or endless loop; provided failures have a value, and some trial
    has finished (or pandas keeps an all-pending column numeric). *)
Theorem optimizer_answers : forall (H : Type) argsort lg k o f eta L ts ts' (fresh : H) draw,
  exact lg -> legal f -> 2 <= eta -> whole_log eta (f_upper f / f_lower f) (Z.of_nat L) ->
  match k with SuccessiveHalving s => s <= L | ASHA s => s = 0 | Hyperband => True | AsyncHyperband => draw <= L end ->
  history (ask argsort lg k o f eta) ts -> Permutation ts ts' ->
  o_ignore_errors o = false -> (o_loss_on_error o = None -> forall t, In t ts -> st_out t <> Failed) ->
  (o_empty_object o = false \/ exists t, In t ts /\ finished t) ->
  exists q, ask argsort lg k o f eta ts' fresh draw = Ok q.
Proof.
  intros H argsort lg k o f eta L ts ts' fresh draw X LG E WL KS HI P IG LE EO.
  exact (answer_lemma argsort lg k o f eta L ts ts' fresh draw X LG E WL KS HI P IG LE EO).
Qed.
Print Assumptions optimizer_answers.
Example optimizer_answers_example : exact exact_log /\ legal fid4 /\
  whole_log 2 (f_upper fid4 / f_lower fid4) (Z.of_nat 2) /\
  history (demo_ask (SuccessiveHalving 0) plain) five_trials /\ (exists t, In t five_trials /\ finished t).
Proof.
  split; [exact exact_log_exact|]. split; [exact fid4_legal|]. split; [exact fid4_log|].
  split; [exact (proj1 table_example)|]. eexists. split; [right; left; reflexivity|discriminate].
Qed.

(** C64: ASHA with an early stopping rate never answers at all. *)
Theorem asha_early_stopping_raises : forall (H : Type) argsort lg o f eta s b (ts : list (strial H)) fresh draw,
  never_above lg -> legal f -> 2 <= eta -> 1 <= s -> make_bracket lg f eta s = Ok b ->
  history (ask argsort lg (ASHA s) o f eta) ts ->
  ts = [] /\ ask argsort lg (ASHA s) o f eta ts fresh draw = Err KeyError.
Proof.
  intros H argsort lg o f eta s b ts fresh draw NA LG E S1 M HI.
  exact (asha_lemma argsort lg o f eta s b ts fresh draw NA LG E S1 M HI).
Qed.
Print Assumptions asha_early_stopping_raises.
Example asha_early_stopping_example : exists b, make_bracket exact_log fid4 2 1 = Ok b /\
  demo_ask (ASHA 1) plain [] 10 0 = Err KeyError.
Proof. eexists. split; [vm_compute; reflexivity|vm_compute; reflexivity]. Qed.

(** C64 with ignore_errors: one failure, and a synchronous optimizer raises TypeError when
    the rung is full. *)
Theorem answers_with_ignored_errors_refuted : exists ts : list (strial nat),
  history (demo_ask (SuccessiveHalving 0) ignoring) ts /\
  demo_ask (SuccessiveHalving 0) ignoring ts 14 0 = Err TypeError /\ exists t, In t ts /\ finished t.
Proof.
  eexists. split; [|split; [|]].
  - apply (play_history _ [Asked 10 0; Asked 11 0; Reported (0, 0) Failed; Asked 12 0; Reported (1, 0) (Loss (FZ 1));
      Asked 13 0; Reported (3, 0) (Loss (FZ 5)); Reported (2, 0) (Loss (FZ 2))] []); [constructor|vm_compute; reflexivity].
  - vm_compute. reflexivity.
  - eexists. split; [left; reflexivity|discriminate].
Qed.
Print Assumptions answers_with_ignored_errors_refuted.

(** C64 when pandas keeps a column of only pending evaluations as objects: TypeError if as
    many workers as places ask before the first result. *)
Theorem answers_all_pending_refuted : exists ts : list (strial nat),
  history (demo_ask (SuccessiveHalving 0) plain) ts /\ o_empty_object plain = true /\
  o_ignore_errors plain = false /\ demo_ask (SuccessiveHalving 0) plain ts 14 0 = Err TypeError.
Proof.
  eexists. split; [|split; [reflexivity|split; [reflexivity|]]].
  - apply (play_history _ [Asked 10 0; Asked 11 0; Asked 12 0; Asked 13 0] []); [constructor|vm_compute; reflexivity].
  - vm_compute. reflexivity.
Qed.
Print Assumptions answers_all_pending_refuted.

(** C64 with the logarithm computed in floats, as at 243 = 3^5: asynchronous Hyperband
    raises KeyError when bracket 1 is drawn and bracket 0 has not produced the highest
    rung. *)
Theorem answers_float_log_refuted : exists lg f draw,
  never_above lg /\ legal f /\
  (forall q n, 2 <= n -> (1 <= q)%Q -> exists z, whole_log n q z /\ (z - 1 <= lg q n <= z)%Z) /\
  history (ask (H := nat) insertion_argsort lg AsyncHyperband plain f 3) [] /\ draw <= 5 /\
  ask (H := nat) insertion_argsort lg AsyncHyperband plain f 3 [] 10 draw = Err KeyError.
Proof.
  exists float_log, (mkFid 1 243 true), 1. split; [exact float_log_below|].
  split; [split; [reflexivity|split; [reflexivity|]]; intros _; split; [exists 1%Z|exists 243%Z]; reflexivity|].
  split; [exact float_log_close|]. split; [constructor|]. split; [lia|vm_compute; reflexivity].
Qed.
Print Assumptions answers_float_log_refuted.

(** C65: promotions are not put off: when all configurations of a bracket are sampled, a
    rung of it is full, all its evaluations are finished with a value, and the next rung
    has room, then the next answer of a synchronous optimizer is a promotion. *)
Theorem promotes_when_possible : forall (H : Type) argsort lg k o f eta bs ts ts' (fresh : H) draw q n b s w r,
  exact lg -> legal f -> 2 <= eta -> sorts argsort -> brackets_of lg k f eta bs ->
  history (ask argsort lg k o f eta) ts -> Permutation ts ts' ->
  ask argsort lg k o f eta ts' fresh draw = Ok q ->
  nth_bracket bs (first_number o) n b s -> width b w ->
  (forall c, s <= c < s + w -> exists t, In t ts /\ fst (st_id t) = c) ->
  b_min b <= r < b_max b -> nget r (b_sizes b) = Some (evaluations ts s w r) ->
  (forall z, nget (S r) (b_sizes b) = Some z -> evaluations ts s w (S r) < z) ->
  (forall t, In t ts -> s <= fst (st_id t) < s + w -> exists v, ranks o (st_out t) v /\ v <> FNaN) ->
  q_prev q <> None.
Proof.
  intros H argsort lg k o f eta bs ts ts' fresh draw q n b s w r X LG E SO BR HI P A N WD ALL R FULL ROOM FIN.
  exact (live_lemma argsort lg k o f eta bs ts ts' fresh draw q n b s w r X LG E SO BR HI P A N WD ALL R FULL ROOM FIN).
Qed.
Print Assumptions promotes_when_possible.
Example promotes_when_possible_example : exists bs b,
  brackets_of exact_log (SuccessiveHalving 0) fid4 2 bs /\ nth_bracket bs (first_number plain) 0 b 0 /\ width b 4 /\
  history (demo_ask (SuccessiveHalving 0) plain) four_trials /\
  (forall c, 0 <= c < 0 + 4 -> exists t, In t four_trials /\ fst (st_id t) = c) /\
  b_min b <= 0 < b_max b /\ nget 0 (b_sizes b) = Some (evaluations four_trials 0 4 0) /\
  (forall z, nget 1 (b_sizes b) = Some z -> evaluations four_trials 0 4 1 < z) /\
  (forall t, In t four_trials -> exists v, ranks plain (st_out t) v /\ v <> FNaN).
Proof.
  eexists _, _. split; [exact four_bracket|]. split; [constructor; reflexivity|]. split; [reflexivity|].
  split; [exact four_history|]. split.
  - intros c C. assert (D : c = 0 \/ c = 1 \/ c = 2 \/ c = 3) by lia.
    destruct D as [-> | [-> | [-> | ->]]];
      [exists (mkST (0, 0) 10 1%Q (Loss (FZ 3)) None)|exists (mkST (1, 0) 11 1%Q (Loss (FZ 1)) None)
      |exists (mkST (2, 0) 12 1%Q (Loss (FZ 2)) None)|exists (mkST (3, 0) 13 1%Q (Loss (FZ 5)) None)];
      (split; [unfold four_trials; simpl; auto|reflexivity]).
  - split; [simpl; lia|]. split; [reflexivity|]. split; [intros z Z; vm_compute in Z; injection Z as <-; vm_compute; lia|].
    intros t T. simpl in T. destruct T as [<-|[<-|[<-|[<-|[]]]]]; eexists; (split; [left; reflexivity|discriminate]).
Qed.

(** C65: an evaluation that returned NaN stops all promotions from its rung of its
    bracket, for ever: whatever has happened, no later answer promotes from there. *)
Theorem nan_blocks_rung : forall (H : Type) argsort lg k o f eta bs ts ts' (fresh : H) draw q c r,
  exact lg -> legal f -> 2 <= eta -> brackets_of lg k f eta bs ->
  history (ask argsort lg k o f eta) ts -> Permutation ts ts' ->
  ask argsort lg k o f eta ts' fresh draw = Ok q -> q_prev q = Some (c, r) ->
  forall n b s w t, nth_bracket bs (first_number o) n b s -> width b w -> s <= c < s + w ->
  In t ts -> s <= fst (st_id t) < s + w -> snd (st_id t) = r -> st_out t <> Loss FNaN.
Proof.
  intros H argsort lg k o f eta bs ts ts' fresh draw q c r X LG E BR HI P A PV n b s w t N WD CB T TB TR.
  exact (stalled_lemma argsort lg k o f eta bs ts ts' fresh draw q c r X LG E BR HI P A PV n b s w t N WD CB T TB TR).
Qed.
Print Assumptions nan_blocks_rung.
(** C65 for evaluations finished without a value is false. *)
Theorem promotes_when_finished_refuted : exists (ts : list (strial nat)) q,
  history (demo_ask (SuccessiveHalving 0) plain) ts /\
  demo_ask (SuccessiveHalving 0) plain ts 14 0 = Ok q /\
  (forall t, In t ts -> finished t) /\ evaluations ts 0 4 0 = 4 /\ evaluations ts 0 4 1 = 0 /\ q_prev q = None.
Proof.
  exists [mkST (3, 0) 13 1 (Loss (FZ 5)) None; mkST (2, 0) 12 1 (Loss (FZ 2)) None;
   mkST (1, 0) 11 1 (Loss FNaN) None; mkST (0, 0) 10 1 (Loss (FZ 3)) None].
  eexists. split; [|split; [vm_compute; reflexivity|split; [|split; [reflexivity|split; reflexivity]]]].
  - apply (play_history _ [Asked 10 0; Asked 11 0; Reported (0, 0) (Loss (FZ 3)); Asked 12 0; Reported (1, 0) (Loss FNaN);
      Asked 13 0; Reported (3, 0) (Loss (FZ 5)); Reported (2, 0) (Loss (FZ 2))] []); [constructor|vm_compute; reflexivity].
  - intros t T. simpl in T. destruct T as [<-|[<-|[<-|[<-|[]]]]]; discriminate.
Qed.
Print Assumptions promotes_when_finished_refuted.
