(** Rounding to binary64. *)
From Verif Require Import Py Yam_model Yam_spec.
Local Open Scope Z_scope.

Lemma pow_pos k : 0 <= k -> 0 < 2 ^ k.
Proof. intros K. apply Z.pow_pos_nonneg; lia. Qed.

Lemma div_even_cases a b : 0 < b ->
  let q0 := a / b in let r := a mod b in
  a = q0 * b + r /\ 0 <= r < b /\
  ((div_even a b = q0 /\ 2 * r <= b /\ (2 * r = b -> Z.Even q0)) \/ (div_even a b = q0 + 1 /\ b <= 2 * r /\ (2 * r = b -> Z.Even (q0 + 1)))).
Proof.
  intros B. cbn zeta. pose proof (Z.div_mod a b) as D. pose proof (Z.mod_pos_bound a b B) as M.
  split; [lia|]. split; [lia|]. unfold div_even.
  destruct (Z.ltb_spec (2 * (a mod b)) b) as [L|L]; [left; split; [reflexivity|]; split; lia|].
  destruct (Z.ltb_spec b (2 * (a mod b))) as [L'|L']; [right; split; [reflexivity|]; split; lia|].
  destruct (Z.even (a / b)) eqn:E.
  - left. split; [reflexivity|]. split; [lia|]. intros _. apply Z.even_spec, E.
  - right. split; [reflexivity|]. split; [lia|]. intros _. apply Z.even_spec. rewrite Z.add_1_r, Z.even_succ, <- Z.negb_even, E. reflexivity.
Qed.

(** no double between two neighbouring multiples of the last digit *)
Lemma gap n k q0 z : 0 <= k -> (k = 0 \/ 2 ^ 52 <= q0) -> n = q0 -> double z -> z <= q0 * 2 ^ k \/ (q0 + 1) * 2 ^ k <= z.
Proof.
  intros K H -> (m & j & M & J & ->). destruct (Z.le_gt_cases k j) as [KJ|KJ].
  - replace (m * 2 ^ j) with ((m * 2 ^ (j - k)) * 2 ^ k) by (rewrite <- Z.mul_assoc, <- Z.pow_add_r by lia; do 2 f_equal; lia).
    pose proof (pow_pos k K). destruct (Z.le_gt_cases (m * 2 ^ (j - k)) q0); [left|right]; apply Z.mul_le_mono_nonneg_r; lia.
  - destruct H as [->|H]; [lia|]. left.
    apply Z.le_trans with (2 ^ 53 * 2 ^ j).
    + apply Z.mul_le_mono_nonneg_r; [apply Z.lt_le_incl, pow_pos, J|lia].
    + apply Z.le_trans with (2 ^ 52 * 2 ^ k).
      * rewrite <- !Z.pow_add_r by lia. apply Z.pow_le_mono_r; lia.
      * apply Z.mul_le_mono_nonneg_r; [apply Z.lt_le_incl, pow_pos, K|exact H].
Qed.

Definition shift (P Q : Z) : Z := Z.max 0 (Z.log2 (P / Q) - 52).
Lemma shift_bounds P Q : 0 <= P -> 0 < Q ->
  let k := shift P Q in let q0 := P / (Q * 2 ^ k) in
  0 <= k /\ 0 <= q0 < 2 ^ 53 /\ (k = 0 \/ 2 ^ 52 <= q0).
Proof.
  intros HP HQ. cbn zeta. set (k := shift P Q). assert (K : 0 <= k) by (unfold k, shift; lia).
  pose proof (pow_pos k K) as G. rewrite <- Z.div_div by lia. assert (N : 0 <= P / Q) by (apply Z.div_pos; lia).
  split; [exact K|]. assert (KE : k = Z.max 0 (Z.log2 (P / Q) - 52)) by reflexivity. clearbody k.
  set (n := P / Q) in *. clearbody n.
  destruct (Z.eq_dec n 0) as [Z0|NZ].
  { subst n. rewrite Z.div_0_l by lia. split; [lia|]. left. exact KE. }
  pose proof (Z.log2_spec n ltac:(lia)) as (L1 & L2).
  destruct (Z.le_gt_cases (Z.log2 n) 52) as [L|L].
  - rewrite Z.max_l in KE by lia. subst k. rewrite Z.pow_0_r, Z.div_1_r. split; [|left; reflexivity]. split; [exact N|].
    apply Z.lt_le_trans with (1 := L2). apply Z.pow_le_mono_r; lia.
  - rewrite Z.max_r in KE by lia. split.
    + split; [apply Z.div_pos; lia|]. apply Z.div_lt_upper_bound; [exact G|]. rewrite <- Z.pow_add_r by lia.
      replace (k + 53) with (Z.succ (Z.log2 n)) by lia. exact L2.
    + right. apply Z.div_le_lower_bound; [exact G|]. rewrite <- Z.pow_add_r by lia.
      replace (k + 52) with (Z.log2 n) by lia. exact L1.
Qed.

Lemma round_core P Q : 0 <= P -> 0 < Q ->
  let k := shift P Q in let z := div_even P (Q * 2 ^ k) * 2 ^ k in
  0 <= z /\ double z /\
  (forall z', double z' -> Z.abs (P - Q * z) <= Z.abs (P - Q * z') /\ (Z.abs (P - Q * z) = Z.abs (P - Q * z') -> z' = z \/ (2 * (z' - z) | z))) /\
  (forall a, 2098 = a -> 2 ^ a <= z -> Q * ((2 ^ 54 - 1) * 2 ^ (a - 54)) <= P).
Proof.
  intros HP HQ. cbn zeta. pose proof (shift_bounds P Q HP HQ) as (K & (Q0 & Q1) & B). cbn zeta in *.
  set (k := shift P Q) in *. clearbody k. pose proof (pow_pos k K) as G.
  assert (D0 : 0 < Q * 2 ^ k) by (apply Z.mul_pos_pos; assumption).
  destruct (div_even_cases P (Q * 2 ^ k) D0) as (E & R & C). cbn zeta in *.
  set (q0 := P / (Q * 2 ^ k)) in *. set (r := P mod (Q * 2 ^ k)) in *. clearbody q0 r.
  set (q := div_even P (Q * 2 ^ k)) in *. clearbody q.
  assert (QB : 0 <= q <= 2 ^ 53) by (destruct C as [(-> & _)|(-> & _)]; lia).
  split; [apply Z.mul_nonneg_nonneg; lia|]. split; [|split].
  - destruct (Z.eq_dec q (2 ^ 53)) as [->|NE].
    + exists (2 ^ 52), (k + 1). split; [lia|]. split; [lia|]. rewrite Z.pow_add_r by lia. lia.
    + exists q, k. split; [lia|]. split; [exact K|reflexivity].
  - intros z' D. pose proof (gap q0 k q0 z' K B eq_refl D) as GP. set (g := 2 ^ k) in *. clearbody g.
    assert (QZ : Q * (q * g) = q * (Q * g)) by ring. rewrite QZ. set (d := Q * g) in *.
    assert (L : Q * z' <= q0 * d \/ (q0 + 1) * d <= Q * z').
    { destruct GP as [GP|GP]; [left|right].
      - replace (q0 * d) with (Q * (q0 * g)) by (unfold d; ring). apply Z.mul_le_mono_nonneg_l; lia.
      - replace ((q0 + 1) * d) with (Q * ((q0 + 1) * g)) by (unfold d; ring). apply Z.mul_le_mono_nonneg_l; lia. }
    assert (EQ : forall t, Q * z' = t * d -> z' = t * g).
    { intros t X. apply (Z.mul_reg_l _ _ Q); [lia|]. rewrite X. unfold d. ring. }
    destruct C as [(-> & C1 & C2)|(-> & C1 & C2)].
    + split.
      * destruct L; lia.
      * intros X. destruct L as [L|L].
        -- left. apply EQ. lia.
        -- right. assert (Y : Q * z' = (q0 + 1) * d) by lia. apply EQ in Y.
           assert (T : 2 * r = d) by lia. destruct (C2 T) as (h & H). exists h. rewrite Y, H. ring.
    + split.
      * destruct L; lia.
      * intros X. destruct L as [L|L].
        -- right. assert (Y : Q * z' = q0 * d) by lia. apply EQ in Y.
           assert (T : 2 * r = d) by lia. destruct (C2 T) as (h & H). exists (- h). rewrite Y, H. ring_simplify. nia.
        -- left. apply EQ. lia.
  - intros a A Z. assert (LE : q0 * (Q * 2 ^ k) <= P) by lia.
    assert (NEQ : 0 <= a - 54) by lia. clear HP.
    assert (W : Q * ((2 ^ 54 - 1) * 2 ^ (a - 54)) <= Q * 2 ^ a).
    { apply Z.mul_le_mono_nonneg_l; [lia|]. replace a with (54 + (a - 54)) at 2 by lia. rewrite Z.pow_add_r by lia. pose proof (pow_pos (a - 54) NEQ). lia. }
    destruct C as [(-> & C1 & _)|(-> & C1 & _)].
    { apply Z.le_trans with (1 := W). apply Z.le_trans with (2 := LE).
      replace (q0 * (Q * 2 ^ k)) with (Q * (q0 * 2 ^ k)) by ring. apply Z.mul_le_mono_nonneg_l; lia. }
    destruct (Z.le_gt_cases a (52 + k)) as [AK|AK].
    { apply Z.le_trans with (1 := W). apply Z.le_trans with (2 := LE).
      replace (q0 * (Q * 2 ^ k)) with (Q * (q0 * 2 ^ k)) by ring. apply Z.mul_le_mono_nonneg_l; [lia|].
      apply Z.le_trans with (2 ^ 52 * 2 ^ k).
      - rewrite <- Z.pow_add_r by lia. apply Z.pow_le_mono_r; lia.
      - apply Z.mul_le_mono_nonneg_r; lia. }
    assert (AK' : a = 53 + k).
    { destruct (Z.le_gt_cases a (53 + k)) as [X|X]; [lia|exfalso].
      assert (2 ^ a <= 2 ^ (53 + k)). { rewrite Z.pow_add_r by lia. apply Z.le_trans with (1 := Z). apply Z.mul_le_mono_nonneg_r; lia. }
      assert (2 ^ (53 + k) < 2 ^ a) by (apply Z.pow_lt_mono_r; lia). lia. }
    assert (K1 : 1 <= k) by lia. clear W A. subst a.
    assert (Q2 : q0 + 1 = 2 ^ 53).
    { apply Z.le_antisymm; [lia|]. apply (Z.mul_le_mono_pos_r _ _ (2 ^ k) G). rewrite <- Z.pow_add_r by lia. exact Z. }
    replace (53 + k - 54) with (k - 1) by lia. assert (G2 : 2 ^ k = 2 * 2 ^ (k - 1)) by (rewrite <- Z.pow_succ_r by lia; f_equal; lia).
    set (h := 2 ^ (k - 1)) in *. rewrite G2 in *. rewrite E. replace q0 with (2 ^ 53 - 1) by lia.
    replace (Q * ((2 ^ 54 - 1) * h)) with ((2 ^ 54 - 1) * (Q * h)) by ring.
    replace ((2 ^ 53 - 1) * (Q * (2 * h))) with ((2 ^ 54 - 2) * (Q * h)) by ring.
    replace (Q * (2 * h)) with (2 * (Q * h)) in * by ring. lia.
Qed.

Lemma unit_pow : fl_unit = 2 ^ 1074. Proof. reflexivity. Qed.
Lemma unit_pos : 0 < fl_unit. Proof. reflexivity. Qed.

Lemma round64_nearest p q : 0 <= p -> 0 < q -> nearest p q (round64 p q).
Proof.
  intros HP HQ. unfold round64. assert (HP' : 0 <= p * fl_unit) by (pose proof unit_pos; nia).
  pose proof (round_core (p * fl_unit) q HP' HQ) as (Z0 & D & N & O). cbn zeta in *. fold (shift (p * fl_unit) q).
  set (z := div_even _ _ * _) in *. clearbody z.
  destruct (Z.leb_spec (2 ^ (1024 + 1074)) z) as [L|L].
  - specialize (O (1024 + 1074) eq_refl L). cbn [nearest].
    assert (U : 2 ^ (1024 + 1074 - 54) = 2 ^ 970 * fl_unit) by (rewrite unit_pow, <- Z.pow_add_r by lia; f_equal; lia).
    rewrite U in O. apply (Z.mul_le_mono_pos_r _ _ fl_unit unit_pos).
    replace (q * ((2 ^ 54 - 1) * 2 ^ 970) * fl_unit) with (q * ((2 ^ 54 - 1) * (2 ^ 970 * fl_unit))) by ring. exact O.
  - cbn [nearest]. split; [exact D|]. split; [rewrite <- Z.pow_add_r by lia; lia|]. unfold off. rewrite <- unit_pow. exact N.
Qed.

Lemma double_neg z : double z -> double (- z).
Proof. intros (m & k & M & K & ->). exists (- m), k. split; [lia|]. split; [exact K|ring]. Qed.
Lemma nearest_neg n d f : nearest n d f -> nearest (- n) d (fl_neg f).
Proof.
  destruct f as [| | |z]; cbn [nearest fl_neg]; set (b := (2 ^ 54 - 1) * 2 ^ 970); clearbody b.
  - intros [].
  - lia.
  - lia.
  - intros (D & B & N). split; [apply double_neg, D|]. split; [rewrite Z.abs_opp; exact B|].
    intros z' D'. specialize (N (- z') (double_neg _ D')).
    assert (X : forall x, off (- n) d x = off n d (- x)).
    { intros x. unfold off. rewrite <- Z.abs_opp. f_equal. ring. }
    rewrite !X, Z.opp_involutive. destruct N as (N1 & N2). split; [exact N1|]. intros E. destruct (N2 E) as [S|(h & S)].
    + left. lia.
    + right. exists h. replace (h * (2 * (z' - - z))) with (- (h * (2 * (- z' - z)))) by ring. rewrite <- S. reflexivity.
Qed.

Lemma dec_float_nearest (neg : bool) m e : 0 <= m ->
  nearest ((if neg then - m else m) * 10 ^ Z.max 0 e) (10 ^ Z.max 0 (- e)) (dec_float neg m e).
Proof.
  intros M. unfold dec_float.
  assert (X : nearest (m * 10 ^ Z.max 0 e) (10 ^ Z.max 0 (- e)) (if 0 <=? e then round64 (m * 10 ^ e) 1 else round64 m (10 ^ (- e)))).
  { destruct (Z.leb_spec 0 e) as [L|L].
    - rewrite (Z.max_r 0 e), (Z.max_l 0 (- e)) by lia. rewrite Z.pow_0_r. apply round64_nearest; [|lia].
      apply Z.mul_nonneg_nonneg; [exact M|]. apply Z.pow_nonneg. lia.
    - rewrite (Z.max_l 0 e), (Z.max_r 0 (- e)) by lia. rewrite Z.pow_0_r, Z.mul_1_r. apply round64_nearest; [exact M|].
      apply Z.pow_pos_nonneg; lia. }
  destruct neg; [|exact X]. apply nearest_neg in X. rewrite Z.mul_opp_l. exact X.
Qed.

(** ** Consequences for the nearest double *)
Lemma double_int n : Z.abs n <= 2 ^ 53 -> double (n * fl_unit).
Proof.
  intros H. destruct (Z.eq_dec (Z.abs n) (2 ^ 53)) as [E|NE].
  - exists (n / 2), 1075. assert (X : n = 2 * (n / 2)).
    { apply Z.div_exact; [lia|]. assert (n = 2 ^ 53 \/ n = - 2 ^ 53) as [->| ->] by lia; reflexivity. }
    split; [|split; [lia|]].
    + assert (n = 2 ^ 53 \/ n = - 2 ^ 53) as [->| ->] by lia; reflexivity.
    + rewrite X at 1. rewrite unit_pow. replace 1075 with (1 + 1074) by lia. rewrite Z.pow_add_r by lia. ring.
  - exists n, 1074. split; [lia|]. split; [lia|]. rewrite unit_pow. reflexivity.
Qed.
(** a number that is a double is its own nearest double *)
Lemma nearest_exact n d f x : 0 < d -> n = d * x -> Z.abs x <= 2 ^ 53 -> nearest n d f -> f = FZ (x * fl_unit).
Proof.
  intros D -> X N.
  assert (B : 2 ^ 53 < (2 ^ 54 - 1) * 2 ^ 970).
  { apply Z.lt_le_trans with (2 ^ 54 - 1); [lia|]. rewrite <- (Z.mul_1_r (2 ^ 54 - 1)) at 1. apply Z.mul_le_mono_nonneg_l; [lia|].
    pose proof (pow_pos 970 ltac:(lia)). lia. }
  destruct f as [| | |z]; cbn [nearest] in N.
  - contradiction.
  - set (b := (2 ^ 54 - 1) * 2 ^ 970) in *. clearbody b. apply Z.mul_le_mono_pos_l in N; [|exact D]. lia.
  - set (b := (2 ^ 54 - 1) * 2 ^ 970) in *. clearbody b. rewrite <- Z.mul_opp_r in N. apply Z.mul_le_mono_pos_l in N; [|exact D]. lia.
  - destruct N as (_ & _ & N). destruct (N _ (double_int x X)) as (N1 & _). unfold off in N1. rewrite <- unit_pow in N1.
    replace (d * x * fl_unit - d * (x * fl_unit)) with 0 in N1 by ring. cbn [Z.abs] in N1.
    f_equal. apply (Z.mul_reg_l _ _ d); [lia|]. nia.
Qed.
Lemma nearest_not_nan n d : ~ nearest n d FNaN. Proof. intros []. Qed.

(** ** There is only one nearest double *)
Lemma even_half g a : g <> 0 -> g <> 2 * g * a.
Proof. intros G E. assert (1 = 2 * a); [|lia]. apply (Z.mul_reg_l _ _ g G). rewrite E at 1. ring. Qed.
Lemma tie_unique z z' : (2 * (z' - z) | z) -> (2 * (z - z') | z') -> z' = z.
Proof.
  intros (a & A) (b & B). destruct (Z.eq_dec (z' - z) 0) as [E|NE]; [lia|]. exfalso. set (g := z' - z) in *.
  apply (even_half g (- b - a) NE). assert (z - z' = - g) as X by (unfold g; ring). rewrite X in B.
  transitivity (z' - z); [reflexivity|]. rewrite A, B. ring.
Qed.
Lemma overflow_not_finite n d z : 0 < d -> d * ((2 ^ 54 - 1) * 2 ^ 970) <= n -> ~ nearest n d (FZ z).
Proof.
  intros D H (DZ & B & N). rewrite <- Z.pow_add_r in B by lia. change (1024 + 1074) with (53 + 2045) in B. unfold off in N.
  assert (G : z <= (2 ^ 53 - 1) * 2 ^ 2045).
  { destruct (gap (2 ^ 53 - 1) 2045 (2 ^ 53 - 1) z ltac:(lia) ltac:(right; lia) eq_refl DZ) as [G|G]; [exact G|exfalso].
    replace (2 ^ 53 - 1 + 1) with (2 ^ 53) in G by lia. rewrite <- Z.pow_add_r in G by lia.
    assert (z <= Z.abs z) by lia. set (b := 2 ^ (53 + 2045)) in *. clearbody b. lia. }
  assert (DZ' : double (2 ^ 53 * 2 ^ 2045)). { exists (2 ^ 52), 2046. split; [lia|]. split; [lia|]. replace 2046 with (1 + 2045) by lia. rewrite (Z.pow_add_r 2 1 2045) by lia. ring. }
  destruct (N _ DZ') as (N1 & N2).
  assert (P : d * ((2 ^ 54 - 1) * 2 ^ 2045) <= 2 * (n * 2 ^ 1074)).
  { replace (d * ((2 ^ 54 - 1) * 2 ^ 2045)) with (2 * (d * ((2 ^ 54 - 1) * 2 ^ 970) * 2 ^ 1074)).
    - apply Z.mul_le_mono_nonneg_l; [lia|]. apply Z.mul_le_mono_nonneg_r; [apply Z.lt_le_incl, pow_pos; lia|exact H].
    - replace 2045 with (1 + (970 + 1074)) by lia. rewrite (Z.pow_add_r 2 1), (Z.pow_add_r 2 970) by lia. ring. }
  clear H B DZ DZ' N. set (U := n * 2 ^ 1074) in *. clearbody U.
  assert (GP : 0 < 2 ^ 2045) by (apply pow_pos; lia). set (g := 2 ^ 2045) in *. clearbody g.
  assert (E : z = (2 ^ 53 - 1) * g /\ 2 * U = d * ((2 ^ 54 - 1) * g)).
  { assert (DG : 0 < d * g) by nia.
    assert (A : d * z <= d * ((2 ^ 53 - 1) * g)) by (apply Z.mul_le_mono_nonneg_l; lia).
    replace (d * ((2 ^ 53 - 1) * g)) with ((2 ^ 53 - 1) * (d * g)) in A by ring.
    replace (d * ((2 ^ 54 - 1) * g)) with ((2 ^ 54 - 1) * (d * g)) in * by ring.
    replace (d * (2 ^ 53 * g)) with (2 ^ 53 * (d * g)) in * by ring. clear N2.
    assert (X : d * z = (2 ^ 53 - 1) * (d * g) /\ 2 * U = (2 ^ 54 - 1) * (d * g)) by (set (w := d * g) in *; set (v := d * z) in *; clearbody w v; lia).
    destruct X as (X1 & X2). split; [|exact X2]. apply (Z.mul_reg_l _ _ d); [lia|]. rewrite X1. ring. }
  destruct E as (-> & E). 
  destruct N2 as [N2|(a & N2)].
  - replace (d * ((2 ^ 53 - 1) * g)) with ((2 ^ 53 - 1) * (d * g)) in * by ring. replace (d * (2 ^ 53 * g)) with (2 ^ 53 * (d * g)) in * by ring.
    replace (d * ((2 ^ 54 - 1) * g)) with ((2 ^ 54 - 1) * (d * g)) in * by ring. assert (0 < d * g) by nia. set (w := d * g) in *. clearbody w. lia.
  - lia.
  - assert ((2 ^ 53 - 1) = a * 2); [|lia]. apply (Z.mul_reg_r _ _ g); [lia|]. rewrite N2. ring.
Qed.
Lemma nearest_unique n d f f' : 0 < d -> nearest n d f -> nearest n d f' -> f = f'.
Proof.
  intros D N N'.
  assert (O : forall z, (d * ((2 ^ 54 - 1) * 2 ^ 970) <= n \/ n <= - (d * ((2 ^ 54 - 1) * 2 ^ 970))) -> ~ nearest n d (FZ z)).
  { intros z [L|L]; [apply overflow_not_finite; assumption|]. intros X. apply nearest_neg in X. revert X. apply overflow_not_finite; [exact D|].
    set (b := d * ((2 ^ 54 - 1) * 2 ^ 970)) in *. clearbody b. lia. }
  assert (B : 0 < d * ((2 ^ 54 - 1) * 2 ^ 970)) by (apply Z.mul_pos_pos; [exact D|apply Z.mul_pos_pos; [lia|apply pow_pos; lia]]).
  destruct f as [| | |z], f' as [| | |z']; try reflexivity; try contradiction.
  1,3: exfalso; cbn [nearest] in N, N'; set (b := d * ((2 ^ 54 - 1) * 2 ^ 970)) in *; clearbody b; lia.
  1,2: exfalso; refine (O _ _ N'); cbn [nearest] in N; tauto.
  1,2: exfalso; refine (O _ _ N); cbn [nearest] in N'; tauto.
  f_equal. destruct N as (DZ & _ & N), N' as (DZ' & _ & N'). destruct (N z' DZ') as (A1 & A2). destruct (N' z DZ) as (B1 & B2).
  assert (E : off n d z = off n d z') by lia. destruct (A2 E) as [->|A3]; [reflexivity|]. destruct (B2 (eq_sym E)) as [->|B3]; [reflexivity|].
  symmetry. apply tie_unique; assumption.
Qed.
