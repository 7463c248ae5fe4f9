(** ifBO: properties of its runs. *)
From Verif Require Import Ifbo_spec Ifbo_adjust_proofs Ifbo_proofs Ifbo_cast_proofs Ifbo_run_proofs Ifbo_new_proofs Ifbo_props Space_proofs Space_more_proofs Space_props Param_proofs Param_int_proofs Param_props Dom_spec Dom_proofs Dom_cast_proofs Py_proofs Space_spec.
From Coq Require Import Lqa Permutation.
Open Scope Q_scope.
Local Notation length := List.length.
Local Notation get := Param_props.get.

Lemma curve_id_eq c k : ifbo_id c (Z.of_nat k) = curve_id c k.
Proof. unfold ifbo_id, curve_id, py_str_Z. destruct (Z.ltb_spec (Z.of_nat k) 0); [lia|]. rewrite Nat2Z.id. reflexivity. Qed.
Lemma curve_id_inj c k c' k' : curve_id c k = curve_id c' k' -> c = c' /\ k = k'.
Proof. rewrite <- !curve_id_eq. intros E. apply ifbo_id_inj in E; lia. Qed.
Lemma to_curve c k : (0 <= k)%Z -> ifbo_id c k = curve_id c (Z.to_nat k).
Proof. intros K. rewrite <- curve_id_eq, Z2Nat.id by exact K. reflexivity. Qed.

Lemma float_is lnf expf s p step o : float_ifbo lnf expf s p step o -> exists st nl u n, step = Some st /\ fp_upper p = Some u /\ 0 < st /\ u - nl == inject_Z n * st /\
  ib_min o = Some nl /\ ib_bins o = n /\ ~ u == 0 /\ is_ifbo lnf expf o (DFloat nl u false None) n (fid_at nl u n).
Proof.
  intros (name & W & F & L & H). apply space_wf in W. destruct (new_float_ifbo lnf expf s name p step o W F L H) as (st & nl & u & n & H1 & H2 & H3 & H4 & H5 & H6 & H7 & H8).
  exists st, nl, u, n. pose proof H8 as (_ & _ & _ & B & _). auto 10.
Qed.
Lemma int_is lnf expf s p step o : int_ifbo lnf expf s p step o -> ((ib_bins o - 1) * (ib_bins o - 1) <= ib_bins o * step)%Z ->
  exists nl n, (0 < step)%Z /\ (ip_upper p - nl = n * step)%Z /\
  ib_min o = Some (inject_Z nl) /\ ib_bins o = n /\ ip_upper p <> 0%Z /\ is_ifbo lnf expf o (DInt nl (ip_upper p) false None) n (fun k => inject_Z (ipt nl (ip_upper p) n k)).
Proof.
  intros (name & W & F & L & H) SQ. apply space_wf in W. destruct (new_int_ifbo lnf expf s name p step o W F L H) as (nl & u & n & H1 & H2 & H3 & H4 & H5 & H6 & H7 & H8 & H9).
  exists nl, n. rewrite H1, H7 in *. split; [exact H2|]. split; [exact H3|]. split; [exact H5|]. split; [reflexivity|]. split; [exact H8|]. apply H9. lia.
Qed.

Lemma steady_is lnf expf s o : steady_ifbo lnf expf s o -> exists d n pts, ib_bins o = n /\ is_ifbo lnf expf o d n pts.
Proof.
  intros [(p & step & H)|(p & step & H & SQ)].
  - destruct (float_is _ _ _ _ _ _ H) as (st & nl & u & n & _ & _ & _ & _ & _ & B & _ & IS). eauto.
  - destruct (int_is _ _ _ _ _ _ H SQ) as (nl & n & _ & _ & _ & B & _ & IS). eauto.
Qed.
Section P.
  Variables lnf expf : Q -> Q.
  Notation A := (Qar lnf expf).
  Context {C V : Type} (enc : C -> V) (dec : V -> C).

  Lemma pred_of o s n pts (IS : is_ifbo lnf expf o s n pts) design ts r prev : ifbo_run A enc dec o design ts -> asks A enc dec o design ts r ->
    sc_previous r = Some prev -> exists t c k, In t ts /\ t_id t = prev /\ prev = curve_id c k /\ sc_id r = curve_id c (S k) /\ finished t /\
      fst (sc_config r) = dec (enc (t_config t)) /\ (Z.of_nat (S k) < n)%Z /\
      (forall t' k', In t' ts -> finished t' -> t_id t' = curve_id c k' -> (k' <= k)%nat).
  Proof.
    intros R AS E. pose proof (run_inv lnf expf enc dec o s n pts IS ts design R) as IV.
    destruct (ask_answers lnf expf enc dec o s n pts IS ts design r IV AS) as [(new & _ & E' & _)|(t & c & k & q & I & EI & K & KN & KL & _ & E1 & E2 & E3 & _ & HI)]; [congruence|].
    exists t, c, (Z.to_nat k). split; [exact I|]. split; [congruence|]. split; [rewrite <- to_curve by exact K; congruence|].
    split; [rewrite E1, to_curve by lia; f_equal; lia|]. split; [apply (finished_known lnf expf), KL|]. split; [rewrite E3; reflexivity|]. split; [lia|].
    intros t' k' I' FN E4. apply (finished_known lnf expf) in FN. specialize (HI t' (Z.of_nat k') I' FN ltac:(lia) ltac:(rewrite curve_id_eq; exact E4)). lia.
  Qed.
End P.

(** ** The predecessor exists *)
Theorem ifbo_predecessor_float_partial : forall lnf expf C V (enc : C -> V) dec s p step o design ts r prev,
  float_ifbo lnf expf s p step o -> ifbo_run (Qar lnf expf) enc dec o design ts -> asks (Qar lnf expf) enc dec o design ts r ->
  sc_previous r = Some prev -> In prev (map t_id ts).
Proof.
  intros lnf expf C V enc dec s p step o design ts r prev (* *) FL R AS E. destruct (float_is _ _ _ _ _ _ FL) as (st & nl & u & n & _ & _ & _ & _ & _ & _ & _ & IS).
  destruct (pred_of lnf expf enc dec o _ _ _ IS design ts r prev R AS E) as (t & c & k & I & <- & _). apply in_map. exact I.
Qed.
Theorem ifbo_predecessor_integer_partial : forall lnf expf C V (enc : C -> V) dec s p step o design ts r prev,
  int_ifbo lnf expf s p step o -> ((ib_bins o - 1) * (ib_bins o - 1) <= ib_bins o * step)%Z ->
  ifbo_run (Qar lnf expf) enc dec o design ts -> asks (Qar lnf expf) enc dec o design ts r ->
  sc_previous r = Some prev -> In prev (map t_id ts).
Proof.
  intros lnf expf C V enc dec s p step o design ts r prev FL SQ R AS E. destruct (int_is _ _ _ _ _ _ FL SQ) as (nl & n & _ & _ & _ & _ & _ & IS).
  destruct (pred_of lnf expf enc dec o _ _ _ IS design ts r prev R AS E) as (t & c & k & I & <- & _). apply in_map. exact I.
Qed.

(** ** Playing *)
Definition no_o : ifbo (option Q) := mkIfbo [] None 0 (mkD (BInt 0 0) false None None false false None) (mkD (BInt 0 0) false None None false false None) (mkD (BInt 0 0) false None None false false None).
Definition ex_acq (new : bool) (l : list (row (option Q) nat)) : list (option Q) :=
  map (fun r => Some (if Nat.eqb (r_id r) 0 then if new then 2 else 0 else 1)) l.
Definition ex_ask (o : ifbo (option Q)) (new : bool) ts := ifbo_ask PA (fun c : nat => c) (fun v => v) o [5%nat] (ex_acq new) (fun _ => 0%nat) [([7%nat], fun _ => [8%nat])] ts.
Definition ex_run (o : ifbo (option Q)) (ts : list (trial (option Q) nat)) : Prop := ifbo_run PA (fun c : nat => c) (fun v => v) o [5%nat] ts.
Definition no_r : sampled (nat * option Q) := mkSampled (0%nat, None) "" None.
Definition ex_trial (r : sampled (nat * option Q)) x : trial (option Q) nat := mkTr (sc_id r) (fst (sc_config r)) (snd (sc_config r)) x.
Definition ex_next o new ts x : list (trial (option Q) nat) := ex_trial (get no_r (ex_ask o new ts)) x :: ts.
Lemma ex_asks o new ts r : ex_ask o new ts = Ok r -> asks PA (fun c : nat => c) (fun v => v) o [5%nat] ts r.
Proof. intros E. eexists _, _, _. exact E. Qed.
Lemma ex_next_run o new ts x : ex_run o ts -> is_ok (ex_ask o new ts) = true -> existsb (String.eqb (sc_id (get no_r (ex_ask o new ts)))) (map t_id ts) = false -> ex_run o (ex_next o new ts x).
Proof.
  intros R E N. destruct (ex_ask o new ts) as [r|] eqn:X; [|discriminate].
  assert (R1 : ex_run o (ex_next o new ts None)).
  { unfold ex_next. rewrite X. cbn [get]. apply run_ask; [exact R|eapply ex_asks; exact X|]. intros I. cbn [get] in N.
    assert (T : existsb (String.eqb (sc_id r)) (map t_id ts) = true) by (apply existsb_exists; exists (sc_id r); split; [exact I|apply String.eqb_refl]). congruence. }
  destruct x as [x|]; [|exact R1]. unfold ex_next in *. unfold ex_trial in *. apply run_report. exact R1.
Qed.
Definition half : option (option (option Q)) := Some (Some (Some (1 # 2))).

Definition ex_o1 : ifbo (option Q) := get no_o (ifbo_new PA q_floordiv ex_s1 (Some (4 # 5))).
Lemma ex_o1_is : float_ifbo pln pexp ex_s1 ex_f1 (Some (4 # 5)) ex_o1.
Proof. exists "epochs". split; [exact ex_s1_is|]. split; [reflexivity|]. split; [reflexivity|]. lazy. reflexivity. Qed.
Lemma ex_o1_st : steady_ifbo pln pexp ex_s1 ex_o1.
Proof. left. exists ex_f1, (Some (4 # 5)). exact ex_o1_is. Qed.
Definition ex_t1 := ex_next ex_o1 false [] half.
Definition ex_t2 := ex_next ex_o1 false ex_t1 half.
Lemma ex_t2_run : ex_run ex_o1 ex_t2.
Proof. apply ex_next_run; [apply ex_next_run; [apply run_nil|lazy; reflexivity|lazy; reflexivity]|lazy; reflexivity|lazy; reflexivity]. Qed.
Example ifbo_predecessor_float_partial_ex : float_ifbo pln pexp ex_s1 ex_f1 (Some (4 # 5)) ex_o1 /\ ex_run ex_o1 ex_t2 /\
  exists r, asks PA (fun c : nat => c) (fun v => v) ex_o1 [5%nat] ex_t2 r /\ sc_id r = "0_2" /\ sc_previous r = Some "0_1".
Proof.
  split; [exact ex_o1_is|]. split; [exact ex_t2_run|]. eexists. split; [eapply (ex_asks ex_o1 false); lazy; reflexivity|]. split; reflexivity.
Qed.

Definition ex_si (u : Z) : space (option Q) := ex_space (PI (ex_fi 1 u None)).
Definition ex_oi (u st : Z) : ifbo (option Q) := get no_o (ifbo_new PA q_floordiv (ex_si u) (Some (inject_Z st))).
Lemma ex_o7_is : int_ifbo pln pexp (ex_si 7) (ex_fi 1 7 None) 2 (ex_oi 7 2).
Proof. exists "epochs". split; [apply ex_space_is; [apply ex_fi_reach; lazy; reflexivity|reflexivity]|]. split; [reflexivity|]. split; [reflexivity|]. lazy. reflexivity. Qed.
Definition ex_u2 := ex_next (ex_oi 7 2) false (ex_next (ex_oi 7 2) false [] half) half.
Lemma ex_u2_run : ex_run (ex_oi 7 2) ex_u2.
Proof. apply ex_next_run; [apply ex_next_run; [apply run_nil|lazy; reflexivity|lazy; reflexivity]|lazy; reflexivity|lazy; reflexivity]. Qed.
Example ifbo_predecessor_integer_partial_ex : int_ifbo pln pexp (ex_si 7) (ex_fi 1 7 None) 2 (ex_oi 7 2) /\
  ((ib_bins (ex_oi 7 2) - 1) * (ib_bins (ex_oi 7 2) - 1) <= ib_bins (ex_oi 7 2) * 2)%Z /\ ex_run (ex_oi 7 2) ex_u2 /\
  exists r, asks PA (fun c : nat => c) (fun v => v) (ex_oi 7 2) [5%nat] ex_u2 r /\ sc_id r = "0_2" /\ sc_previous r = Some "0_1".
Proof.
  split; [exact ex_o7_is|]. split; [lazy; discriminate|]. split; [exact ex_u2_run|]. eexists. split; [eapply (ex_asks (ex_oi 7 2) false); lazy; reflexivity|]. split; reflexivity.
Qed.

(** Epochs 1 to 4 with the default step 1: after 0_0 and 0_1 comes 0_3, which is said to
    continue 0_2. *)
Lemma ex_o4_is : int_ifbo pln pexp (ex_si 4) (ex_fi 1 4 None) 1 (ex_oi 4 1).
Proof. exists "epochs". split; [apply ex_space_is; [apply ex_fi_reach; lazy; reflexivity|reflexivity]|]. split; [reflexivity|]. split; [reflexivity|]. lazy. reflexivity. Qed.
Definition ex_v2 := ex_next (ex_oi 4 1) false (ex_next (ex_oi 4 1) false [] half) half.
Theorem ifbo_predecessor_refuted : exists s p o design (ts : list (trial (option Q) nat)) r, int_ifbo pln pexp s p 1 o /\
  ifbo_run PA (fun c => c) (fun v => v) o design ts /\ asks PA (fun c => c) (fun v => v) o design ts r /\
  map t_id ts = ["0_1"; "0_0"] /\ sc_id r = "0_3" /\ sc_previous r = Some "0_2".
Proof.
  exists (ex_si 4), (ex_fi 1 4 None), (ex_oi 4 1), [5%nat], ex_v2. eexists. split; [exact ex_o4_is|]. split.
  - apply ex_next_run; [apply ex_next_run; [apply run_nil|lazy; reflexivity|lazy; reflexivity]|lazy; reflexivity|lazy; reflexivity].
  - split; [eapply (ex_asks (ex_oi 4 1) false); lazy; reflexivity|]. split; [lazy; reflexivity|]. split; reflexivity.
Qed.

(** ** Curves have no gaps *)
Theorem ifbo_curves_partial : forall lnf expf C V (enc : C -> V) dec s o design ts t,
  steady_ifbo lnf expf s o -> ifbo_run (Qar lnf expf) enc dec o design ts -> In t ts ->
  exists c k, t_id t = curve_id c k /\ (Z.of_nat k < ib_bins o)%Z /\ forall j, (j <= k)%nat -> In (curve_id c j) (map t_id ts).
Proof.
  intros lnf expf C V enc dec s o design ts t FL R I. destruct (steady_is _ _ _ _ FL) as (ds & n & pts & B & IS).
  pose proof (run_inv lnf expf enc dec o _ _ _ IS ts design R) as IV. destruct (IV t I) as (c & k & E & (K & _) & _).
  exists c, (Z.to_nat k). rewrite E, to_curve by lia. split; [reflexivity|]. split; [lia|].
  assert (G : forall d j, (Z.to_nat k = j + d)%nat -> In (curve_id c j) (map t_id ts)).
  { induction d as [|d IH]; intros j EJ.
    - rewrite Nat.add_0_r in EJ. subst j. rewrite <- to_curve, <- E by lia. apply in_map. exact I.
    - specialize (IH (S j) ltac:(lia)). apply in_map_iff in IH. destruct IH as (t' & E' & I'). destruct (IV t' I') as (c' & k' & E2 & (K2 & _) & P).
      rewrite E2, to_curve in E' by lia. apply curve_id_inj in E'. destruct E' as [-> E']. specialize (P ltac:(lia)). rewrite to_curve in P by lia.
      replace (Z.to_nat (k' - 1)) with j in P by lia. exact P. }
  intros j J. apply (G (Z.to_nat k - j)%nat). lia.
Qed.
Example ifbo_curves_partial_ex : steady_ifbo pln pexp ex_s1 ex_o1 /\ ex_run ex_o1 ex_t2 /\ map t_id ex_t2 = ["0_1"; "0_0"].
Proof. split; [exact ex_o1_st|]. split; [exact ex_t2_run|lazy; reflexivity]. Qed.
Theorem ifbo_curves_refuted : exists s p o design (ts : list (trial (option Q) nat)), int_ifbo pln pexp s p 1 o /\
  ifbo_run PA (fun c => c) (fun v => v) o design ts /\ map t_id ts = ["0_3"; "0_1"; "0_0"].
Proof.
  exists (ex_si 4), (ex_fi 1 4 None), (ex_oi 4 1), [5%nat], (ex_next (ex_oi 4 1) false ex_v2 None). split; [exact ex_o4_is|]. split; [|lazy; reflexivity].
  apply ex_next_run; [|lazy; reflexivity|lazy; reflexivity].
  apply ex_next_run; [apply ex_next_run; [apply run_nil|lazy; reflexivity|lazy; reflexivity]|lazy; reflexivity|lazy; reflexivity].
Qed.

(** ** What is continued *)

(** A proposal that continues names the last finished step of a configuration, has the same
    configuration, and is its next step. *)
Theorem ifbo_continues_partial : forall lnf expf C V (enc : C -> V) dec s o design ts r prev,
  steady_ifbo lnf expf s o -> ifbo_run (Qar lnf expf) enc dec o design ts -> asks (Qar lnf expf) enc dec o design ts r ->
  sc_previous r = Some prev -> exists t c k, In t ts /\ t_id t = curve_id c k /\ prev = curve_id c k /\ sc_id r = curve_id c (S k) /\ finished t /\
    (Z.of_nat (S k) < ib_bins o)%Z /\ ((forall x, dec (enc x) = x) -> fst (sc_config r) = t_config t) /\
    (forall t' k', In t' ts -> finished t' -> t_id t' = curve_id c k' -> (k' <= k)%nat).
Proof.
  intros lnf expf C V enc dec s o design ts r prev FL R AS E. destruct (steady_is _ _ _ _ FL) as (ds & n & pts & B & IS).
  destruct (pred_of lnf expf enc dec o _ _ _ IS design ts r prev R AS E) as (t & c & k & H1 & H2 & H3 & H4 & H5 & H6 & H7 & H8).
  exists t, c, k. rewrite B. split; [exact H1|]. split; [congruence|]. split; [exact H3|]. split; [exact H4|]. split; [exact H5|]. split; [exact H7|]. split; [|exact H8].
  intros X. rewrite H6. apply X.
Qed.
Example ifbo_continues_partial_ex : steady_ifbo pln pexp ex_s1 ex_o1 /\ ex_run ex_o1 ex_t2 /\
  exists r, asks PA (fun c : nat => c) (fun v => v) ex_o1 [5%nat] ex_t2 r /\ sc_id r = "0_2" /\ sc_previous r = Some "0_1".
Proof. destruct ifbo_predecessor_float_partial_ex as (_ & H). split; [exact ex_o1_st|exact H]. Qed.

(** A proposal that does not continue is a configuration with a new number, at the lowest
    fidelity. *)
Theorem ifbo_new_float_partial : forall lnf expf C V (enc : C -> V) dec s p step o design ts r u,
  float_ifbo lnf expf s p step o -> fp_upper p = Some u -> ~ u == 1 ->
  ifbo_run (Qar lnf expf) enc dec o design ts -> asks (Qar lnf expf) enc dec o design ts r ->
  sc_previous r = None -> exists c nl, sc_id r = curve_id c 0 /\ ib_min o = Some nl /\ gives (snd (sc_config r)) nl /\
    forall t c' k, In t ts -> t_id t = curve_id c' k -> (c' < c)%nat.
Proof.
  intros lnf expf C V enc dec s p step o design ts r u FL EU U1 R AS E. destruct (float_is _ _ _ _ _ _ FL) as (st & nl & u' & n & _ & EU' & _ & _ & IM & B & U0 & IS).
  rewrite EU in EU'. injection EU' as <-.
  pose proof (run_inv lnf expf enc dec o _ _ _ IS ts design R) as IV.
  destruct (ask_answers lnf expf enc dec o _ _ _ IS ts design r IV AS) as [(new & E1 & _ & (_ & F) & N)|(t & c & k & q & _ & _ & _ & _ & _ & _ & _ & E2 & _)]; [|congruence].
  exists new, nl. split; [rewrite E1; apply to_curve; lia|]. split; [exact IM|]. split.
  - destruct F as [(_ & _ & F)|(q & -> & Q)].
    + exfalso. apply U1. unfold lb in F. cbn [hi] in F. change (inject_Z 1) with 1 in F. assert (X : 1 / u * u == 1) by (field; exact U0). rewrite F in X. lra.
    + exists q. split; [reflexivity|]. rewrite Q. unfold fid_at. change (inject_Z 0) with 0. unfold Qdiv. ring.
  - intros t c' k I E2. apply (N t c' (Z.of_nat k) I). rewrite curve_id_eq. exact E2.
Qed.
Example ifbo_new_float_partial_ex : float_ifbo pln pexp ex_s1 ex_f1 (Some (4 # 5)) ex_o1 /\ fp_upper ex_f1 = Some 4 /\ ~ 4 == 1 /\ ex_run ex_o1 ex_t2 /\
  exists r, asks PA (fun c : nat => c) (fun v => v) ex_o1 [5%nat] ex_t2 r /\ sc_id r = "1_0" /\ sc_previous r = None.
Proof.
  split; [exact ex_o1_is|]. split; [reflexivity|]. split; [lazy; discriminate|]. split; [exact ex_t2_run|]. eexists. split; [eapply (ex_asks ex_o1 true); lazy; reflexivity|]. split; reflexivity.
Qed.
(** With the greatest fidelity 1 it has no fidelity (NaN). *)
Definition ex_fh : fparam (option Q) := ex_ff 0 1 None.
Definition ex_oh : ifbo (option Q) := get no_o (ifbo_new PA q_floordiv (ex_space (PF ex_fh)) (Some (1 # 4))).
Lemma ex_oh_is : float_ifbo pln pexp (ex_space (PF ex_fh)) ex_fh (Some (1 # 4)) ex_oh.
Proof. exists "epochs". split; [apply ex_space_is; [apply ex_ff_reach; reflexivity|reflexivity]|]. split; [reflexivity|]. split; [reflexivity|]. lazy. reflexivity. Qed.
Theorem ifbo_new_float_refuted : exists s p o design (ts : list (trial (option Q) nat)) r, float_ifbo pln pexp s p (Some (1 # 4)) o /\ fp_upper p = Some 1 /\
  ifbo_run PA (fun c => c) (fun v => v) o design ts /\ asks PA (fun c => c) (fun v => v) o design ts r /\ sc_id r = "1_0" /\ snd (sc_config r) = None.
Proof.
  exists (ex_space (PF ex_fh)), ex_fh, ex_oh, [5%nat], (ex_next ex_oh false [] half). eexists. split; [exact ex_oh_is|]. split; [reflexivity|]. split.
  - apply ex_next_run; [apply run_nil|lazy; reflexivity|lazy; reflexivity].
  - split; [eapply (ex_asks ex_oh true); lazy; reflexivity|]. split; reflexivity.
Qed.
(** With a greatest fidelity of at most one, nothing is ever continued. *)
Theorem ifbo_fractions_never_continue : forall lnf expf C V (enc : C -> V) dec s p step o design ts r u,
  float_ifbo lnf expf s p step o -> fp_upper p = Some u -> 0 < u -> u <= 1 ->
  ifbo_run (Qar lnf expf) enc dec o design ts -> asks (Qar lnf expf) enc dec o design ts r -> sc_previous r = None.
Proof.
  intros lnf expf C V enc dec s p step o design ts r u FL EU U0 U1 R AS. destruct (float_is _ _ _ _ _ _ FL) as (st & nl & u' & n & _ & EU' & _ & _ & IM & B & _ & IS).
  rewrite EU in EU'. injection EU' as <-. pose proof (run_inv lnf expf enc dec o _ _ _ IS ts design R) as IV.
  destruct (ask_answers lnf expf enc dec o _ _ _ IS ts design r IV AS) as [(new & _ & E & _)|(t & c & k & q & _ & _ & _ & _ & _ & L & _)]; [exact E|].
  exfalso. unfold lb in L. cbn [hi] in L. change (inject_Z 1) with 1 in L. apply div_lt_1 in L; lra.
Qed.
Example ifbo_fractions_never_continue_ex : float_ifbo pln pexp (ex_space (PF ex_fh)) ex_fh (Some (1 # 4)) ex_oh /\ fp_upper ex_fh = Some 1 /\
  ex_run ex_oh (ex_next ex_oh false [] half) /\
  exists r, asks PA (fun c : nat => c) (fun v => v) ex_oh [5%nat] (ex_next ex_oh false [] half) r.
Proof.
  split; [exact ex_oh_is|]. split; [reflexivity|]. split; [apply ex_next_run; [apply run_nil|lazy; reflexivity|lazy; reflexivity]|].
  eexists. eapply (ex_asks ex_oh false); lazy; reflexivity.
Qed.

(** ** The fidelities *)

(** Step [k] is at point [k] of [n] equidistant points from the lowest to the greatest
    fidelity, [n] being the number of steps in the range. *)
Theorem ifbo_fidelities_float_partial : forall lnf expf C V (enc : C -> V) dec s p step o design ts t u,
  float_ifbo lnf expf s p step o -> fp_upper p = Some u -> ~ u == 1 -> ifbo_run (Qar lnf expf) enc dec o design ts -> In t ts ->
  exists nl c k, ib_min o = Some nl /\ t_id t = curve_id c k /\ (Z.of_nat k < ib_bins o)%Z /\ gives (t_fid t) (fid_at nl u (ib_bins o) (Z.of_nat k)) /\
    nl <= fid_at nl u (ib_bins o) (Z.of_nat k) /\ fid_at nl u (ib_bins o) (Z.of_nat k) <= u.
Proof.
  intros lnf expf C V enc dec s p step o design ts t u FL EU U1 R I. destruct (float_is _ _ _ _ _ _ FL) as (st & nl & u' & n & _ & EU' & _ & _ & IM & B & U0 & IS).
  rewrite EU in EU'. injection EU' as <-. pose proof (run_inv lnf expf enc dec o _ _ _ IS ts design R) as IV. destruct (IV t I) as (c & k & E & (K & F) & _).
  exists nl, c, (Z.to_nat k). rewrite B, Z2Nat.id by lia. split; [exact IM|]. split; [rewrite E; apply to_curve; lia|]. split; [lia|]. split.
  - destruct F as [(_ & _ & F)|(q & -> & Q)]; [|exists q; auto].
    exfalso. apply U1. unfold lb in F. cbn [hi] in F. change (inject_Z 1) with 1 in F. assert (X : 1 / u * u == 1) by (field; exact U0). rewrite F in X. lra.
  - destruct IS as (_ & LU & _). cbn [lo hi] in LU. unfold fid_at.
    assert (X : 0 <= inject_Z k / inject_Z (n - 1) /\ inject_Z k / inject_Z (n - 1) <= 1).
    { destruct (Z.eq_dec n 1) as [->|NE].
      - assert (k = 0%Z) as -> by lia. change (inject_Z 0 / inject_Z (1 - 1)) with 0. lra.
      - assert (P : 0 < inject_Z (n - 1)) by (apply injZ_pos; lia). split.
        + apply Qle_shift_div_l; [exact P|]. rewrite Qmult_0_l. apply injZ_nonneg. lia.
        + apply Qle_shift_div_r; [exact P|]. rewrite Qmult_1_l, <- Zle_Qle. lia. }
    set (x := inject_Z k / inject_Z (n - 1)) in *. clearbody x. destruct X as [X1 X2].
    assert (Y1 : 0 <= x * (u - nl)) by (apply Qmult_le_0_compat; lra). assert (Y2 : 0 <= (1 - x) * (u - nl)) by (apply Qmult_le_0_compat; lra). lra.
Qed.
Example ifbo_fidelities_float_partial_ex : float_ifbo pln pexp ex_s1 ex_f1 (Some (4 # 5)) ex_o1 /\ fp_upper ex_f1 = Some 4 /\ ~ 4 == 1 /\ ex_run ex_o1 ex_t2 /\ map t_id ex_t2 = ["0_1"; "0_0"].
Proof. split; [exact ex_o1_is|]. split; [reflexivity|]. split; [lazy; discriminate|]. split; [exact ex_t2_run|lazy; reflexivity]. Qed.

(** Steps are longer than the step size. *)
Theorem ifbo_step_size_refuted : exists s p o design (ts : list (trial (option Q) nat)) q0 q1, float_ifbo pln pexp s p (Some 1) o /\
  ifbo_run PA (fun c => c) (fun v => v) o design ts /\ map t_id ts = ["0_1"; "0_0"] /\ map t_fid ts = [Some q1; Some q0] /\ q0 == 1 /\ q1 == 5 # 2.
Proof.
  set (o := get no_o (ifbo_new PA q_floordiv (ex_space (PF (ex_ff 1 4 None))) (Some 1))).
  exists (ex_space (PF (ex_ff 1 4 None))), (ex_ff 1 4 None), o, [5%nat], (ex_next o false (ex_next o false [] half) half). do 2 eexists.
  split. { exists "epochs". split; [apply ex_space_is; [apply ex_ff_reach; reflexivity|reflexivity]|]. split; [reflexivity|]. split; [reflexivity|]. lazy. reflexivity. }
  split. { apply ex_next_run; [apply ex_next_run; [apply run_nil|lazy; reflexivity|lazy; reflexivity]|lazy; reflexivity|lazy; reflexivity]. }
  split; [lazy; reflexivity|]. split; [lazy; reflexivity|]. split; lazy; reflexivity.
Qed.
(** In general they are [n / (n - 1)] times the step size. *)
Theorem ifbo_increment_float : forall lnf expf s p st o u nl k, float_ifbo lnf expf s p (Some st) o -> fp_upper p = Some u -> ib_min o = Some nl -> (2 <= ib_bins o)%Z ->
  fid_at nl u (ib_bins o) (k + 1) - fid_at nl u (ib_bins o) k == st * (inject_Z (ib_bins o) / inject_Z (ib_bins o - 1)) /\ st < st * (inject_Z (ib_bins o) / inject_Z (ib_bins o - 1)).
Proof.
  intros lnf expf s p st o u nl k FL EU EM N. destruct (float_is _ _ _ _ _ _ FL) as (st' & nl' & u' & n & ES & EU' & SP & WD & IM & B & U0 & IS).
  rewrite EU in EU'. injection EU' as <-. rewrite EM in IM. injection IM as <-. injection ES as <-. rewrite B in *.
  assert (P : 0 < inject_Z (n - 1)) by (apply injZ_pos; lia). split.
  - unfold fid_at. rewrite inject_Z_plus. change (inject_Z 1) with 1.
    setoid_replace (nl + (inject_Z k + 1) / inject_Z (n - 1) * (u - nl) - (nl + inject_Z k / inject_Z (n - 1) * (u - nl))) with ((u - nl) / inject_Z (n - 1)) by (field; lra).
    rewrite WD. field. lra.
  - assert (X : 1 < inject_Z n / inject_Z (n - 1)). { apply Qlt_shift_div_l; [exact P|]. rewrite Qmult_1_l, <- Zlt_Qlt. lia. }
    set (x := inject_Z n / inject_Z (n - 1)) in *. clearbody x. assert (0 < st * (x - 1)) by (apply Qmult_lt_0_compat; lra). lra.
Qed.
Example ifbo_increment_float_ex : float_ifbo pln pexp ex_s1 ex_f1 (Some (4 # 5)) ex_o1 /\ fp_upper ex_f1 = Some 4 /\ (2 <= ib_bins ex_o1)%Z.
Proof. split; [exact ex_o1_is|]. split; [reflexivity|]. lazy. discriminate. Qed.

(** ** Identifiers *)
Theorem ifbo_ids_new_partial : forall lnf expf C V (enc : C -> V) dec s o design ts r,
  steady_ifbo lnf expf s o -> ifbo_run (Qar lnf expf) enc dec o design ts -> asks (Qar lnf expf) enc dec o design ts r ->
  (forall t, In t ts -> finished t) -> ~ In (sc_id r) (map t_id ts).
Proof.
  intros lnf expf C V enc dec s o design ts r FL R AS FN. destruct (steady_is _ _ _ _ FL) as (ds & n & pts & _ & IS).
  pose proof (run_inv lnf expf enc dec o _ _ _ IS ts design R) as IV. apply (ask_fresh lnf expf enc dec o _ _ _ IS ts design r IV AS).
  intros t I. apply (finished_known lnf expf), FN, I.
Qed.
Example ifbo_ids_new_partial_ex : steady_ifbo pln pexp ex_s1 ex_o1 /\ ex_run ex_o1 ex_t2 /\ (forall t, In t ex_t2 -> finished t) /\
  exists r, asks PA (fun c : nat => c) (fun v => v) ex_o1 [5%nat] ex_t2 r.
Proof.
  split; [exact ex_o1_st|]. split; [exact ex_t2_run|]. split; [intros t [<-|[<-|[]]]; exact I|].
  eexists. eapply (ex_asks ex_o1 false); lazy; reflexivity.
Qed.
(** While 0_1 is being evaluated it is proposed again. *)
Theorem ifbo_ids_new_refuted : exists s p step o design (ts : list (trial (option Q) nat)) r, float_ifbo pln pexp s p step o /\
  ifbo_run PA (fun c => c) (fun v => v) o design ts /\ asks PA (fun c => c) (fun v => v) o design ts r /\ map t_id ts = ["0_1"; "0_0"] /\ sc_id r = "0_1".
Proof.
  exists ex_s1, ex_f1, (Some (4 # 5)), ex_o1, [5%nat], (ex_next ex_o1 false ex_t1 None). eexists. split; [exact ex_o1_is|]. split.
  - apply ex_next_run; [apply ex_next_run; [apply run_nil|lazy; reflexivity|lazy; reflexivity]|lazy; reflexivity|lazy; reflexivity].
  - split; [eapply (ex_asks ex_o1 false); lazy; reflexivity|]. split; [lazy; reflexivity|reflexivity].
Qed.

(** ** There is a proposal *)
Theorem ifbo_proposes_partial : forall lnf expf C V (enc : C -> V) dec s o design ts acq argmax samplers,
  steady_ifbo lnf expf s o -> ifbo_run (Qar lnf expf) enc dec o design ts -> (2 <= ib_bins o)%Z -> losses_in_range ts ->
  good_scores acq argmax -> good_samplers samplers -> ts <> [] \/ design <> [] ->
  is_ok (ifbo_ask (Qar lnf expf) enc dec o design acq argmax samplers ts) = true.
Proof.
  intros lnf expf C V enc dec s o design ts acq am sm FL R N LR G GS NE. destruct (steady_is _ _ _ _ FL) as (ds & n & pts & B & IS).
  pose proof (run_inv lnf expf enc dec o _ _ _ IS ts design R) as IV. rewrite B in N.
  destruct (ask_total lnf expf enc dec o _ _ _ IS ts design acq am sm IV N LR G GS NE) as (r & E). rewrite E. reflexivity.
Qed.
Example ifbo_proposes_partial_ex : steady_ifbo pln pexp ex_s1 ex_o1 /\ ex_run ex_o1 ex_t2 /\ (2 <= ib_bins ex_o1)%Z /\ losses_in_range ex_t2 /\
  good_scores (ex_acq true) (fun _ => 0%nat) /\ good_samplers [([7%nat], fun _ : nat => [8%nat])] /\ ex_t2 <> [].
Proof.
  split; [exact ex_o1_st|]. split; [exact ex_t2_run|]. split; [lazy; discriminate|]. split.
  { intros t x [<-|[<-|[]]] [= <-]; exists (1 # 2); (split; [reflexivity|]); lra. }
  split. { split; [intros l; apply map_length|]. split; [|intros [|x l] N; [contradiction|cbn; lia]].
    intros l H. apply in_map_iff in H. destruct H as (r & H & _). discriminate. }
  split; [split; [discriminate|intros s [<-|[]]; split; [discriminate|intros v; discriminate]]|]. lazy. discriminate.
Qed.
(** With one step in the range there is none after the initial design. *)
Theorem ifbo_one_step_stops : forall lnf expf C V (enc : C -> V) dec s o design ts r,
  steady_ifbo lnf expf s o -> ib_bins o = 1%Z -> ifbo_run (Qar lnf expf) enc dec o design ts -> asks (Qar lnf expf) enc dec o design ts r ->
  exists c n, nth_error design n = Some c /\ sc_id r = curve_id n 0.
Proof.
  intros lnf expf C V enc dec s o design ts r FL B R AS. destruct (steady_is _ _ _ _ FL) as (ds & n & pts & _ & IS).
  pose proof (run_inv lnf expf enc dec o _ _ _ IS ts design R) as IV. destruct AS as (acq & am & sm & AS). unfold ifbo_ask in AS.
  apply bind_ok in AS. destruct AS as (ids & _ & AS). destruct (nth_error design _) as [c|] eqn:D.
  - injection AS as <-. eexists c, _. split; [exact D|]. cbn [sc_id]. rewrite <- curve_id_eq. reflexivity.
  - apply bind_ok in AS. destruct AS as (xy & _ & AS). rewrite B in AS. discriminate.
Qed.
Definition ex_o2 : ifbo (option Q) := get no_o (ifbo_new PA q_floordiv ex_s1 (Some 2)).
Example ifbo_one_step_stops_ex : steady_ifbo pln pexp ex_s1 ex_o2 /\ ib_bins ex_o2 = 1%Z /\ ex_run ex_o2 (ex_next ex_o2 false [] half) /\
  is_ok (ex_ask ex_o2 true []) = true /\ ex_ask ex_o2 true (ex_next ex_o2 false [] half) = Err ValueError.
Proof.
  split. { left. exists ex_f1, (Some 2), "epochs". split; [exact ex_s1_is|]. split; [reflexivity|]. split; [reflexivity|]. lazy. reflexivity. }
  split; [lazy; reflexivity|]. split; [apply ex_next_run; [apply run_nil|lazy; reflexivity|lazy; reflexivity]|]. split; lazy; reflexivity.
Qed.

Theorem ifbo_proposes_refuted : exists s o design (ts : list (trial (option Q) nat)), steady_ifbo pln pexp s o /\ ifbo_run PA (fun c => c) (fun v => v) o design ts /\
  losses_in_range ts /\ ts <> [] /\ forall acq argmax samplers, ifbo_ask PA (fun c => c) (fun v => v) o design acq argmax samplers ts = Err ValueError.
Proof.
  exists ex_s1, ex_o2, [5%nat], (ex_next ex_o2 false [] half). destruct ifbo_one_step_stops_ex as (H1 & _ & H2 & _).
  split; [exact H1|]. split; [exact H2|]. split; [intros t x [<-|[]] [= <-]; exists (1 # 2); (split; [reflexivity|]); lra|]. split; [discriminate|].
  intros acq am sm. lazy. reflexivity.
Qed.

(** ** The losses *)
Theorem ifbo_losses_checked_partial : forall lnf expf C V (enc : C -> V) dec s o design ts r t q,
  steady_ifbo lnf expf s o -> ifbo_run (Qar lnf expf) enc dec o design ts -> asks (Qar lnf expf) enc dec o design ts r ->
  (forall t, In t ts -> finished t) -> In t ts -> t_report t = Some (Some (Some q)) -> q < 0 \/ 1 < q ->
  exists c n, nth_error design n = Some c /\ sc_id r = curve_id n 0.
Proof.
  intros lnf expf C V enc dec s o design ts r t q FL R (acq & am & sm & AS) FN I RP O. destruct (steady_is _ _ _ _ FL) as (ds & n & pts & _ & IS).
  pose proof (run_inv lnf expf enc dec o _ _ _ IS ts design R) as IV.
  destruct (loss_checked lnf expf enc dec o _ _ _ ts design acq am sm t q r IV) as (c & k & H1 & H2); try assumption.
  { intros t' I'. apply (finished_known lnf expf), FN, I'. }
  exists c, k. split; [exact H1|]. rewrite H2. apply to_curve. lia.
Qed.
Definition big : option (option (option Q)) := Some (Some (Some 2)).
Example ifbo_losses_checked_partial_ex : steady_ifbo pln pexp ex_s1 ex_o1 /\ ex_run ex_o1 (ex_next ex_o1 false [] big) /\
  ex_ask ex_o1 true (ex_next ex_o1 false [] big) = Err RuntimeError.
Proof. split; [exact ex_o1_st|]. split; [apply ex_next_run; [apply run_nil|lazy; reflexivity|lazy; reflexivity]|lazy; reflexivity]. Qed.
(** While a trial is being evaluated the losses are not checked. *)
Theorem ifbo_losses_checked_refuted : exists s p step o design (ts : list (trial (option Q) nat)) r t, float_ifbo pln pexp s p step o /\
  ifbo_run PA (fun c => c) (fun v => v) o design ts /\ asks PA (fun c => c) (fun v => v) o design ts r /\
  In t ts /\ t_report t = Some (Some (Some 2)) /\ sc_id r = "0_2" /\ length design = 1%nat.
Proof.
  set (ts := ex_trial (get no_r (ex_ask ex_o1 true (ex_next ex_o1 false ex_t1 None))) None :: ex_next ex_o1 false ex_t1 big).
  exists ex_s1, ex_f1, (Some (4 # 5)), ex_o1, [5%nat], ts, (get no_r (ex_ask ex_o1 false ts)), (ex_trial (get no_r (ex_ask ex_o1 false ex_t1)) big).
  split; [exact ex_o1_is|].
  assert (R1 : ex_run ex_o1 (ex_next ex_o1 true (ex_next ex_o1 false ex_t1 None) None)).
  { apply ex_next_run; [apply ex_next_run; [apply ex_next_run; [apply run_nil|lazy; reflexivity|lazy; reflexivity]|lazy; reflexivity|lazy; reflexivity]|lazy; reflexivity|lazy; reflexivity]. }
  split.
  - eapply run_perm; [|apply perm_swap]. apply run_report. eapply run_perm; [|apply perm_swap]. exact R1.
  - split; [eapply (ex_asks ex_o1 false); lazy; reflexivity|]. split; [right; left; reflexivity|]. split; [reflexivity|]. split; [lazy; reflexivity|reflexivity].
Qed.

(** ** Crashed evaluations *)

(** The score of a crashed evaluation is the greatest of all. *)
Theorem ifbo_crashed_scores_greatest : forall lnf expf C V (enc : C -> V) o (ts : list (trial (option Q) C)) rows ys i j t t' y y', losses_in_range ts ->
  encode_ftpfn (Qar lnf expf) enc o ts = Ok (rows, ys) -> nth_error ts i = Some t -> nth_error ts j = Some t' -> nth_error ys i = Some y -> nth_error ys j = Some y' ->
  t_report t = Some None -> finished t' -> exists a b, y = Some a /\ y' = Some b /\ b <= a.
Proof.
  intros lnf expf C V enc o ts rows ys i j t t' y y' LR EN I J Y Y' RP FN. unfold encode_ftpfn in EN. apply bind_ok in EN. destruct EN as (rows' & _ & EN).
  assert (EY : ys = map (fun t => asub (Qar lnf expf) (aZ (Qar lnf expf) 1) (loss_of (Qar lnf expf) t)) ts).
  { rewrite <- (map_map (loss_of (Qar lnf expf)) (fun y => asub (Qar lnf expf) (aZ (Qar lnf expf) 1) y)).
    destruct (map (loss_of (Qar lnf expf)) ts) as [|z l]; [discriminate|]. destruct (_ || _); [discriminate|]. injection EN as _ <-. reflexivity. }
  rewrite EY in Y, Y'. rewrite (map_nth_error _ i ts I) in Y. rewrite (map_nth_error _ j ts J) in Y'. injection Y as <-. injection Y' as <-.
  pose proof (loss_unit lnf expf ts t' LR (nth_error_In _ _ J)) as U. unfold loss_of in *. rewrite RP. unfold finished in FN.
  destruct (t_report t') as [[[q|]|]|]; try destruct FN; cbn [unit_or_nan] in U; cbn [aZ asub lift2 Qar] in *; do 2 eexists; (split; [reflexivity|]); (split; [reflexivity|]);
    change (inject_Z 1) with 1; change (inject_Z 0) with 0; lra.
Qed.
Definition ex_crash : list (trial (option Q) nat) := [mkTr "0_0" 5%nat (Some 1) (Some None); mkTr "1_0" 5%nat (Some 1) half].
Example ifbo_crashed_scores_greatest_ex : losses_in_range ex_crash /\ exists rows, encode_ftpfn PA (fun c => c) ex_o1 ex_crash = Ok (rows, [Some 1; Some (1 # 2)]).
Proof.
  split; [intros t x [<-|[<-|[]]] [= <-]; exists (1 # 2); (split; [reflexivity|]); lra|]. eexists. lazy. reflexivity.
Qed.
Theorem ifbo_crashed_is_worst_refuted : exists (ts : list (trial (option Q) nat)) rows ys, losses_in_range ts /\ map t_report ts = [Some None; half] /\
  encode_ftpfn PA (fun c => c) ex_o1 ts = Ok (rows, ys) /\ ys = [Some 1; Some (1 # 2)].
Proof.
  destruct ifbo_crashed_scores_greatest_ex as (H1 & rows & H2). exists ex_crash, rows. eexists. split; [exact H1|]. split; [reflexivity|]. split; [exact H2|reflexivity].
Qed.

Print Assumptions ifbo_predecessor_float_partial.
Print Assumptions ifbo_predecessor_integer_partial.
Print Assumptions ifbo_predecessor_refuted.
Print Assumptions ifbo_curves_partial.
Print Assumptions ifbo_curves_refuted.
Print Assumptions ifbo_continues_partial.
Print Assumptions ifbo_new_float_partial.
Print Assumptions ifbo_new_float_refuted.
Print Assumptions ifbo_fractions_never_continue.
Print Assumptions ifbo_fidelities_float_partial.
Print Assumptions ifbo_step_size_refuted.
Print Assumptions ifbo_increment_float.
Print Assumptions ifbo_ids_new_partial.
Print Assumptions ifbo_ids_new_refuted.
Print Assumptions ifbo_proposes_partial.
Print Assumptions ifbo_one_step_stops.
Print Assumptions ifbo_proposes_refuted.
Print Assumptions ifbo_losses_checked_partial.
Print Assumptions ifbo_losses_checked_refuted.
Print Assumptions ifbo_crashed_scores_greatest.
Print Assumptions ifbo_crashed_is_worst_refuted.
