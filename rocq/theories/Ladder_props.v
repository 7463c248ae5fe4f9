(** C30, C36: budgets and sizes of rungs. *)
From Verif Require Import Ladder_proofs.
Open Scope nat_scope.

(** C30: within the bounds, up to the maximal fidelity, strictly growing by a factor of
    eta up to truncation, for every bracket. *)
Theorem fidelity_ladder : forall lg, never_above lg -> forall f eta s b,
  legal f -> 2 <= eta -> make_bracket lg f eta s = Ok b ->
  good_ladder f eta (b_min b) (b_max b) (fun r => nget r (b_rungs b)).
Proof. intros lg H f eta s b G E M. exact (ladder_lemma lg f eta s b H G E M). Qed.
Print Assumptions fidelity_ladder.
Definition fid_epochs : fidelity := mkFid 1 100 true.
Example fidelity_ladder_example : legal fid_epochs /\
  exists b, make_bracket exact_log fid_epochs 3 0 = Ok b /\
    b_rungs b = [(4, inject_Z 100); (3, inject_Z 33); (2, inject_Z 11); (1, inject_Z 3); (0, inject_Z 1)] /\
    b_sizes b = [(0, 81); (1, 27); (2, 9); (3, 3); (4, 1)].
Proof.
  split.
  - split; [reflexivity|split; [reflexivity|]]. intros _. split; [exists 1%Z|exists 100%Z]; reflexivity.
  - vm_compute. eexists. auto.
Qed.

(** C30: early_stopping_rate s removes exactly the lowest s rungs, and is refused when
    there are no more rungs; when the logarithm is exact. *)
Theorem early_stopping_removes_rungs : forall lg, exact lg -> forall f eta,
  legal f -> 2 <= eta ->
  exists b0, make_bracket lg f eta 0 = Ok b0 /\ b_min b0 = 0 /\
    whole_log eta (f_upper f / f_lower f) (Z.of_nat (b_max b0)) /\
    (forall s, s <= b_max b0 -> exists b, make_bracket lg f eta s = Ok b /\
       forall r x, nget r (b_rungs b) = Some x <-> s <= r /\ nget r (b_rungs b0) = Some x) /\
    (forall s, b_max b0 < s -> make_bracket lg f eta s = Err AssertionError).
Proof.
  intros lg X f eta G E. destruct (brackets_lemma lg f eta X G E) as (b0 & B0 & T & A & B).
  exists b0. split; [auto|]. split; [|split; [|split; [|auto]]].
  - destruct (A 0) as (b & B1 & M & _); [lia|]. congruence.
  - rewrite T. pose proof G as (P & LU & _). apply X; auto. apply ratio_ge_1; auto. apply Qlt_le_weak; auto.
  - intros s S. destruct (A s S) as (b & B1 & _ & _ & R). exists b. split; auto.
    intros r x. rewrite R. destruct (Nat.leb_spec s r); split; intros Y; auto; try tauto; try lia; discriminate.
Qed.
Print Assumptions early_stopping_removes_rungs.
Example early_stopping_example : exact exact_log /\
  exists b, make_bracket exact_log fid_epochs 3 2 = Ok b /\
    b_rungs b = [(4, inject_Z 100); (3, inject_Z 33); (2, inject_Z 11)] /\
    make_bracket exact_log fid_epochs 3 5 = Err AssertionError.
Proof. split; [exact exact_log_exact|]. vm_compute. eexists. auto. Qed.

(** C30: with the logarithm computed in floats, which loses a rung at 243 = 3^5, the
    brackets disagree: full statement (with [never_above] in place of [exact]) refuted.
    Rung 1 gets budget 9 in the bracket with early stopping rate 0 and 3 with 1, and
    the highest rungs are 4 and 5. *)
Theorem early_stopping_rounded_refuted : exists lg f eta b0 b1 r x y,
  (forall q n, 2 <= n -> (1 <= q)%Q -> exists z, whole_log n q z /\ (z - 1 <= lg q n <= z)%Z) /\
  never_above lg /\ legal f /\ 2 <= eta /\
  make_bracket lg f eta 0 = Ok b0 /\ make_bracket lg f eta 1 = Ok b1 /\
  nget r (b_rungs b0) = Some x /\ nget r (b_rungs b1) = Some y /\ ~ (x == y)%Q /\
  b_max b0 < b_max b1.
Proof.
  exists float_log, (mkFid 1 243 true), 3.
  assert (B0 : make_bracket float_log (mkFid 1 243 true) 3 0 =
    Ok (mkB [(4, inject_Z 243); (3, inject_Z 81); (2, inject_Z 27); (1, inject_Z 9); (0, inject_Z 3)]
            [(0, 81); (1, 27); (2, 9); (3, 3); (4, 1)] 0 4)) by (vm_compute; reflexivity).
  assert (B1 : make_bracket float_log (mkFid 1 243 true) 3 1 =
    Ok (mkB [(5, inject_Z 243); (4, inject_Z 81); (3, inject_Z 27); (2, inject_Z 9); (1, inject_Z 3)]
            [(1, 27); (2, 9); (3, 3); (4, 1); (5, 0)] 1 5)) by (vm_compute; reflexivity).
  eexists _, _, 1, (inject_Z 9), (inject_Z 3).
  split; [exact float_log_close|]. split; [exact float_log_below|].
  split; [split; [reflexivity|split; [reflexivity|]]; intros _; split; [exists 1%Z|exists 243%Z]; reflexivity|].
  split; [lia|]. split; [exact B0|]. split; [exact B1|].
  split; [reflexivity|]. split; [reflexivity|]. split; [discriminate|]. simpl. lia.
Qed.
Print Assumptions early_stopping_rounded_refuted.

(** C36: a rung has floor((L+1)/(L-s+1)) * eta^(L-r) places, L being the highest rung,
    so sizes shrink by exactly eta from rung to rung. *)
Theorem bracket_sizes : forall lg, exact lg -> forall f eta s b,
  legal f -> 2 <= eta -> make_bracket lg f eta s = Ok b ->
  (forall r, (exists n, nget r (b_sizes b) = Some n) <-> s <= r <= b_max b) /\
  (forall r n, nget r (b_sizes b) = Some n ->
     n = (b_max b + 1) / (b_max b - s + 1) * eta ^ (b_max b - r) /\ 1 <= n) /\
  (forall r n m, nget r (b_sizes b) = Some n -> nget (S r) (b_sizes b) = Some m -> n = m * eta).
Proof.
  intros lg X f eta s b G E M. pose proof (sizes_lemma lg f eta s b X G E M) as S.
  assert (SL : s <= b_max b).
  { destruct (make_bracket_inv lg f eta s b (exact_below lg X) G E M) as (_ & N & _ & _ & _ & T). lia. }
  split; [|split].
  - intros r. rewrite S. destruct (Nat.leb_spec s r), (Nat.leb_spec r (b_max b)); simpl; split;
      intros Y; try lia; eauto; destruct Y; discriminate.
  - intros r n. rewrite S. destruct (Nat.leb_spec s r), (Nat.leb_spec r (b_max b)); simpl;
      intros Y; try discriminate. injection Y as <-. split; auto.
    assert (1 <= (b_max b + 1) / (b_max b - s + 1)) by (apply Nat.div_le_lower_bound; lia).
    assert (1 <= eta ^ (b_max b - r)) by (assert (eta ^ (b_max b - r) <> 0) by (apply Nat.pow_nonzero; lia); lia).
    nia.
  - intros r n m. rewrite !S.
    destruct (Nat.leb_spec s r), (Nat.leb_spec r (b_max b)); cbn [andb]; intros Y; try discriminate.
    destruct (Nat.leb_spec s (Datatypes.S r)), (Nat.leb_spec (Datatypes.S r) (b_max b));
      cbn [andb]; intros Z; try discriminate.
    injection Y as <-. injection Z as <-.
    replace (b_max b - r) with (Datatypes.S (b_max b - Datatypes.S r)) by lia.
    rewrite Nat.pow_succ_r'. lia.
Qed.
Print Assumptions bracket_sizes.
Example bracket_sizes_example : exists b, make_bracket exact_log fid_epochs 3 1 = Ok b /\
  b_sizes b = [(1, 27); (2, 9); (3, 3); (4, 1)].
Proof. vm_compute. eexists. auto. Qed.

(** C36: the size of the lowest rung compared to ceil((L+1)/(k+1) * eta^k), k = L - s,
    of the Hyperband paper: between half of it and it. *)
Definition ceil_div (a b : nat) : nat := (a + (b - 1)) / b.
Theorem bracket_sizes_against_paper : forall lg, exact lg -> forall f eta s b n,
  legal f -> 2 <= eta -> make_bracket lg f eta s = Ok b -> nget s (b_sizes b) = Some n ->
  let k := b_max b - s in
  let paper := ceil_div ((b_max b + 1) * eta ^ k) (k + 1) in
  n <= paper <= 2 * n.
Proof.
  intros lg X f eta s b n G E M N k paper.
  destruct (bracket_sizes lg X f eta s b G E M) as (A & B & _). destruct (B s n N) as [-> _].
  assert (SL : s <= b_max b) by (apply A; eauto). clear A B N.
  fold k. unfold paper, ceil_div. set (L := b_max b) in *.
  set (p := eta ^ k). assert (P : 1 <= p) by (assert (eta ^ k <> 0) by (apply Nat.pow_nonzero; lia); unfold p; lia).
  pose proof (Nat.div_mod (L + 1) (k + 1) ltac:(lia)) as D.
  pose proof (Nat.mod_upper_bound (L + 1) (k + 1) ltac:(lia)) as R.
  set (d := (L + 1) / (k + 1)) in *. set (m := (L + 1) mod (k + 1)) in *.
  assert (D1 : 1 <= d) by (apply Nat.div_le_lower_bound; lia).
  rewrite D. split.
  - apply Nat.div_le_lower_bound; [lia|]. nia.
  - apply Nat.lt_succ_r. apply Nat.div_lt_upper_bound; [lia|].
    assert (m * p <= k * p) by (apply Nat.mul_le_mono_r; lia). nia.
Qed.
Print Assumptions bracket_sizes_against_paper.
(** C36: it is not the size of the paper: 9 instead of 12 for s = 1 with four rungs. *)
Theorem paper_sizes_refuted : exists f eta s b n, legal f /\ 2 <= eta /\
  make_bracket exact_log f eta s = Ok b /\ nget s (b_sizes b) = Some n /\
  n <> ceil_div ((b_max b + 1) * eta ^ (b_max b - s)) (b_max b - s + 1).
Proof.
  assert (B1 : make_bracket exact_log (mkFid 1 27 true) 3 1 =
    Ok (mkB [(3, inject_Z 27); (2, inject_Z 9); (1, inject_Z 3)] [(1, 9); (2, 3); (3, 1)] 1 3))
    by (vm_compute; reflexivity).
  exists (mkFid 1 27 true), 3, 1, (mkB [(3, inject_Z 27); (2, inject_Z 9); (1, inject_Z 3)] [(1, 9); (2, 3); (3, 1)] 1 3), 9.
  split; [split; [reflexivity|split; [reflexivity|]]; intros _; split; [exists 1%Z|exists 27%Z]; reflexivity|].
  split; [lia|]. split; [exact B1|]. split; [reflexivity|]. vm_compute. discriminate.
Qed.
Print Assumptions paper_sizes_refuted.
