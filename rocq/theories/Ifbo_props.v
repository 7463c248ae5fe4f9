(** ifBO: properties. *)
From Verif Require Import Ifbo_spec Ifbo_adjust_proofs Ifbo_proofs Ifbo_cast_proofs Ifbo_run_proofs Ifbo_new_proofs Space_proofs Space_more_proofs Space_props Param_proofs Param_int_proofs Param_props Dom_spec Dom_proofs Dom_cast_proofs Py_proofs Space_spec.
From Coq Require Import Lqa Permutation.
Open Scope Q_scope.
Local Notation length := List.length.
Local Notation get := Param_props.get.
Local Notation A64 := (Bar64 (fun x => x) (fun x => x)).

(** ** Examples *)
Definition ex_space (p : param (option Q)) : space (option Q) := [("epochs", p); ("x", PF ex_f)].
Lemma ex_space_is p : preach pln pexp p -> p_fid p = true -> is_space pln pexp (ex_space p).
Proof.
  intros R F. exists (ex_space p). split; [repeat constructor; cbn; intuition discriminate|]. split.
  - intros k q [[= <- <-]|[[= <- <-]|[]]]; [exact R|]. exists 1%Q, 9%Q. apply ex_f_reach.
  - unfold search_space, ex_space. change (sort_names [("epochs", p); ("x", PF ex_f)]) with [("epochs", p); ("x", PF ex_f)]. unfold s_fidelities. cbn [filter map snd fst]. rewrite F. reflexivity.
Qed.
Definition ex_ff (l u : Q) (d : option Q) : fparam (option Q) := get no_f (float_parameter PA (Some l) (Some u) false true (opt_map Some d) "medium").
Definition ex_fi (l u : Z) (d : option Z) : iparam (option Q) :=
  get no_i (integer_parameter PA (Some (inject_Z l)) (Some (inject_Z u)) false true (opt_map (fun z => Some (inject_Z z)) d) "medium").
Lemma ex_ff_reach l u d : float_parameter PA (Some l) (Some u) false true (opt_map Some d) "medium" = Ok (ex_ff l u d) -> preach pln pexp (PF (ex_ff l u d)).
Proof. intros E. exists l, u. eapply fr_new. exact E. Qed.
Lemma ex_fi_reach l u d : integer_parameter PA (Some (inject_Z l)) (Some (inject_Z u)) false true (opt_map (fun z => Some (inject_Z z)) d) "medium" = Ok (ex_fi l u d) -> preach pln pexp (PI (ex_fi l u d)).
Proof. intros E. exists l, u. eapply ir_new; [exact E|apply round_Z|apply round_Z]. Qed.

(** ** The step size *)

(** The upper bound stays, the lower bound moves up by less than a step, and the range becomes
    a multiple of the step; nothing else of the space changes. *)
Theorem step_adjustment_float : forall lnf expf s name p step s' n, is_space lnf expf s -> s_fidelity s = Some name -> lookup name s = Some (PF p) ->
  adjust (Qar lnf expf) q_floordiv s (Some step) = Ok (s', n) ->
  exists l u nl q, fp_lower p = Some l /\ fp_upper p = Some u /\ lookup name s' = Some (PF q) /\ fp_lower q = Some nl /\ fp_upper q = Some u /\
    l <= nl /\ nl < l + step /\ u - nl == inject_Z n * step /\ (1 <= n)%Z /\
    is_space lnf expf s' /\ map fst s' = map fst s /\ (forall k, k <> name -> lookup k s' = lookup k s) /\
    s_fidelity s' = Some name /\ fp_log q = fp_log p /\ fp_default q = fp_default p /\ fp_conf q = fp_conf p.
Proof.
  intros lnf expf s name p step s' n W F L AD. apply space_wf in W.
  destruct (adjust_float_inv lnf expf s name p _ s' n W F L AD) as (l & u & nl & st & q & E & SP & N & LG & EL & EU & QL & QU & B1 & B2 & B3 & B4 & ES & W' & F' & NM & QG & QF & QD & QC & DM).
  injection E as <-. exists l, u, nl, q. split; [exact EL|]. split; [exact EU|]. split; [rewrite ES, lookup_set_key, String.eqb_refl; reflexivity|].
  split; [exact QL|]. split; [exact QU|]. split; [exact B1|]. split; [exact B2|]. split; [exact B3|]. split; [exact N|].
  split; [apply space_wf, W'|]. split; [exact NM|]. split; [|split; [exact F'|split; [congruence|auto]]].
  intros k NE. rewrite ES, lookup_set_key. apply String.eqb_neq in NE. rewrite NE. reflexivity.
Qed.
Definition ex_f1 : fparam (option Q) := ex_ff 1 4 (Some 3).
Definition ex_s1 : space (option Q) := ex_space (PF ex_f1).
Lemma ex_s1_is : is_space pln pexp ex_s1.
Proof. apply ex_space_is; [apply ex_ff_reach; reflexivity|reflexivity]. Qed.
Example step_adjustment_float_ex : is_space pln pexp ex_s1 /\ s_fidelity ex_s1 = Some "epochs" /\ lookup "epochs" ex_s1 = Some (PF ex_f1) /\
  exists s', adjust PA q_floordiv ex_s1 (Some (4 # 5)) = Ok (s', 3%Z) /\ s' <> ex_s1.
Proof.
  split; [exact ex_s1_is|]. split; [reflexivity|]. split; [reflexivity|]. eexists. split; [lazy; reflexivity|]. lazy. intros H. discriminate.
Qed.

Theorem step_adjustment_integer_partial : forall lnf expf s name p step s' n, is_space lnf expf s -> s_fidelity s = Some name -> lookup name s = Some (PI p) ->
  adjust (Qar lnf expf) q_floordiv s (Some (inject_Z step)) = Ok (s', n) ->
  exists q, lookup name s' = Some (PI q) /\ ip_upper q = ip_upper p /\ (ip_lower p <= ip_lower q)%Z /\ (ip_lower q < ip_lower p + step)%Z /\
    (ip_upper q - ip_lower q = n * step)%Z /\ (1 <= n)%Z /\
    is_space lnf expf s' /\ map fst s' = map fst s /\ (forall k, k <> name -> lookup k s' = lookup k s) /\
    s_fidelity s' = Some name /\ ip_log q = ip_log p /\ ip_default q = ip_default p /\ ip_conf q = ip_conf p.
Proof.
  intros lnf expf s name p step s' n W F L AD. apply space_wf in W.
  destruct (adjust_int_inv lnf expf s name p step s' n W F L AD) as (q & SP & N & LG & QU & B1 & B2 & B3 & ES & W' & F' & NM & QG & QF & QD & QC & DM).
  exists q. split; [rewrite ES, lookup_set_key, String.eqb_refl; reflexivity|].
  split; [exact QU|]. split; [exact B1|]. split; [exact B2|]. split; [exact B3|]. split; [exact N|].
  split; [apply space_wf, W'|]. split; [exact NM|]. split; [|split; [exact F'|split; [congruence|auto]]].
  intros k NE. rewrite ES, lookup_set_key. apply String.eqb_neq in NE. rewrite NE. reflexivity.
Qed.
Definition ex_i1 : iparam (option Q) := ex_fi 1 12 (Some 7%Z).
Definition ex_s2 : space (option Q) := ex_space (PI ex_i1).
Lemma ex_s2_is : is_space pln pexp ex_s2.
Proof. apply ex_space_is; [apply ex_fi_reach; lazy; reflexivity|reflexivity]. Qed.
Example step_adjustment_integer_partial_ex : is_space pln pexp ex_s2 /\ s_fidelity ex_s2 = Some "epochs" /\ lookup "epochs" ex_s2 = Some (PI ex_i1) /\
  exists s', adjust PA q_floordiv ex_s2 (Some (inject_Z 4)) = Ok (s', 2%Z) /\ s' <> ex_s2.
Proof.
  split; [exact ex_s2_is|]. split; [reflexivity|]. split; [reflexivity|]. eexists. split; [lazy; reflexivity|]. lazy. intros H. discriminate.
Qed.

(** It succeeds for every step up to the width of the range, provided that the default is not
    below the new lower bound. *)
Theorem step_adjustment_float_possible : forall lnf expf s name p step l u, is_space lnf expf s -> s_fidelity s = Some name -> lookup name s = Some (PF p) ->
  fp_log p = false -> fp_lower p = Some l -> fp_upper p = Some u -> 0 < step -> step <= u - l ->
  is_ok (adjust (Qar lnf expf) q_floordiv s (Some step)) = true <->
  (forall d, fp_default p = Some (Some d) -> exists n, u - inject_Z n * step <= d /\ u - inject_Z n * step - step < l /\ l <= u - inject_Z n * step).
Proof.
  intros lnf expf s name p step l u W F L LG EL EU S LU. apply space_wf in W.
  destruct (adjust_float lnf expf s name p l u step W F L LG EL EU S LU) as [H1 H2].
  destruct (fid_step_inv lnf expf l u step _ _ ltac:(lra) (fid_step_ok lnf expf l u step S LU)) as (N & _ & _ & _ & B1 & B2).
  set (n := Qfloor ((u - l) / step)) in *. clearbody n. split.
  - intros OK d E. exists n. split; [|split; lra]. destruct (Qlt_le_dec d (l + (u - l - inject_Z n * step))) as [X|X]; [|lra].
    rewrite (H2 d E X) in OK. discriminate.
  - intros H. destruct H1 as (q & E & _); [|rewrite E; reflexivity].
    intros d E. destruct (H d E) as (n' & X1 & X2 & X3).
    assert (E1 : (n' <= n)%Z).
    { apply Z.lt_succ_r. rewrite Zlt_Qlt. apply (Qmult_lt_r _ _ step S). unfold Z.succ. rewrite inject_Z_plus. change (inject_Z 1) with 1. lra. }
    assert (E2 : (n <= n')%Z).
    { apply Z.lt_succ_r. rewrite Zlt_Qlt. apply (Qmult_lt_r _ _ step S). unfold Z.succ. rewrite inject_Z_plus. change (inject_Z 1) with 1. lra. }
    assert (n' = n) by lia. subst n'. lra.
Qed.
Example step_adjustment_float_possible_ex : is_space pln pexp ex_s1 /\ s_fidelity ex_s1 = Some "epochs" /\ lookup "epochs" ex_s1 = Some (PF ex_f1) /\
  fp_log ex_f1 = false /\ fp_lower ex_f1 = Some 1 /\ fp_upper ex_f1 = Some 4 /\ fp_default ex_f1 = Some (Some 3) /\
  is_ok (adjust PA q_floordiv ex_s1 (Some (4 # 5))) = true.
Proof. split; [exact ex_s1_is|]. repeat (split; [reflexivity|]). lazy. reflexivity. Qed.

(** With a default below the new lower bound it is refused. *)
Theorem step_adjustment_default_refuted : exists s p, is_space pln pexp s /\ lookup "epochs" s = Some (PF p) /\ s_fidelity s = Some "epochs" /\
  fp_log p = false /\ fp_lower p = Some 1 /\ fp_upper p = Some 4 /\ fp_default p = Some (Some 1) /\
  adjust PA q_floordiv s (Some 2) = Err ValueError.
Proof.
  exists (ex_space (PF (ex_ff 1 4 (Some 1)))), (ex_ff 1 4 (Some 1)).
  split; [apply ex_space_is; [apply ex_ff_reach; reflexivity|reflexivity]|]. repeat (split; [reflexivity|]). lazy. reflexivity.
Qed.

(** A step that is not an integer and an integer fidelity: the lower bound is rounded. *)
Theorem step_adjustment_integer_refuted : exists s p s' q n, is_space pln pexp s /\ lookup "epochs" s = Some (PI p) /\ s_fidelity s = Some "epochs" /\
  adjust PA q_floordiv s (Some (7 # 10)) = Ok (s', n) /\ lookup "epochs" s' = Some (PI q) /\
  (ip_lower p + 1 <= ip_lower q)%Z /\ ~ inject_Z (ip_upper q - ip_lower q) == inject_Z n * (7 # 10).
Proof.
  exists (ex_space (PI (ex_fi 0 2 None))), (ex_fi 0 2 None). do 3 eexists.
  split; [apply ex_space_is; [apply ex_fi_reach; lazy; reflexivity|reflexivity]|]. split; [reflexivity|]. split; [reflexivity|].
  split; [lazy; reflexivity|]. split; [reflexivity|]. split; [lazy; discriminate|]. lazy. discriminate.
Qed.

(** In binary64 from 0 to 1 with steps of 0.1: nine steps, from 0.09999999999999998. *)
Definition ex_tenth : spec_float := b64 false 7205759403792794 (-56).
Definition ex_s64 : space spec_float :=
  [("epochs", PF (get (mkF S754_nan S754_nan false true None "" "" None None false None None (mkD (BFloat S754_nan S754_nan) false None None false false None))
      (float_parameter A64 (S754_zero false) (aZ A64 1) false true None "medium")))].
Theorem step_adjustment_binary64_refuted : exists s' p l, adjust A64 (sf_floordiv 53 1024) ex_s64 ex_tenth = Ok (s', 9%Z) /\
  lookup "epochs" s' = Some (PF p) /\ sf_Q (fp_lower p) = Some l /\ 0 < l /\ fp_upper p = aZ A64 1 /\
  exists st, sf_Q ex_tenth = Some st /\ ~ 1 - l == inject_Z 9 * st.
Proof.
  do 3 eexists. split; [lazy; reflexivity|]. split; [reflexivity|]. split; [lazy; reflexivity|]. split; [lazy; reflexivity|]. split; [reflexivity|].
  eexists. split; [lazy; reflexivity|]. lazy. discriminate.
Qed.

Print Assumptions step_adjustment_float.
Print Assumptions step_adjustment_integer_partial.
Print Assumptions step_adjustment_float_possible.
Print Assumptions step_adjustment_default_refuted.
Print Assumptions step_adjustment_integer_refuted.
Print Assumptions step_adjustment_binary64_refuted.
