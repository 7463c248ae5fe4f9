(** Theorems about search spaces and configurations. *)
From Verif Require Import Space_proofs Space_more_proofs Space_ops_proofs Space_eq_proofs Space_mut_proofs Space_grid_proofs Space_ask_proofs Param_props Param_proofs Dom_cast_proofs Enc_spec Enc_proofs Py_proofs Dom_model Space_spec.
From Coq Require Import Lqa Permutation Qabs SpecFloat.
Open Scope nat_scope.
Local Notation length := List.length.
Local Notation get := Param_props.get.

(** A space for the examples: a log float, a categorical, a constant and an integer fidelity,
    and configurations of it. *)
Definition ex_fid : iparam (option Q) := get no_i (integer_parameter PA (Some 1%Q) (Some 9%Q) false true None "medium").
Definition ex_l : list (string * param (option Q)) :=
  [("opt", PC ex_c); ("lr", PF ex_g); ("epochs", PI ex_fid); ("arch", PK (constant_parameter (VStr "mlp")))].
Definition ex_s : space (option Q) := Eval lazy in get [] (search_space ex_l).
Definition ex_draws (n : nat) (x : Q) (k : string) (_ : nat) : draw (option Q) := if String.eqb k "opt" then DIdx n else DNum (Some x).
Definition ex_1 : space (option Q) := Eval lazy in get [] (s_sample PA ex_s false 1 (ex_draws 0 (1 # 4))).
Definition ex_2 : space (option Q) := Eval lazy in get [] (s_sample PA ex_s false 1 (ex_draws 3 (1 # 2))).
Lemma ex_l_reach : forall k p, In (k, p) ex_l -> preach pln pexp p.
Proof.
  intros k p [[= <- <-]|[[= <- <-]|[[= <- <-]|[[= <- <-]|[]]]]].
  - exists ex_cs. split; [apply ex_c_reach|apply ex_cs_nan].
  - exists 1%Q, 9%Q. apply ex_g_reach.
  - exists 1%Z, 9%Z. apply (ir_new PA true 1 9 (Some 1%Q) (Some 9%Q) false true None "medium"); reflexivity.
  - split; reflexivity.
Qed.
Lemma ex_l_nodup : NoDup (map fst ex_l).
Proof. repeat constructor; cbn; intuition discriminate. Qed.
Lemma ex_s_space : is_space pln pexp ex_s.
Proof. exists ex_l. split; [exact ex_l_nodup|]. split; [exact ex_l_reach|reflexivity]. Qed.
Lemma ex_1_of : s_sample PA ex_s false 1 (ex_draws 0 (1 # 4)) = Ok ex_1. Proof. lazy. reflexivity. Qed.
Lemma ex_2_of : s_sample PA ex_s false 1 (ex_draws 3 (1 # 2)) = Ok ex_2. Proof. lazy. reflexivity. Qed.

(** ** The constructor *)
(** The parameters of a space are in alphabetical order. *)
Theorem space_alphabetical : forall lnf expf s, is_space lnf expf s -> alphabetical (map fst s).
Proof. intros lnf expf s S. apply space_wf in S. destruct S as (O & _). apply ordered_alphabetical, O. Qed.
Example space_alphabetical_ex : is_space pln pexp ex_s /\ map fst ex_s = ["arch"; "epochs"; "lr"; "opt"].
Proof. split; [exact ex_s_space|reflexivity]. Qed.

(** The order in which they are given does not matter. *)
Theorem space_order_free : forall (l l' : list (string * param (option Q))), NoDup (map fst l) -> Permutation l l' ->
  search_space l = search_space l'.
Proof. exact ss_perm. Qed.
Example space_order_free_ex : NoDup (map fst ex_l) /\ Permutation ex_l (rev ex_l) /\ ex_l <> rev ex_l.
Proof. split; [exact ex_l_nodup|]. split; [apply Permutation_rev|discriminate]. Qed.

(** A space is refused just when it has more than one fidelity. *)
Theorem space_one_fidelity : forall (l : list (string * param (option Q))),
  let fids := filter (fun kv => p_fid (snd kv)) l in
  (1 < length fids -> search_space l = Err ValueError) /\
  (length fids <= 1 -> exists s, search_space l = Ok s /\ Permutation l s).
Proof.
  intros l fids. pose proof (ss_total l) as H. fold fids in H. split; intros L.
  - rewrite (proj2 (Nat.ltb_lt _ _) L) in H. exact H.
  - rewrite (proj2 (Nat.ltb_ge _ _) L) in H. exists (sort_names l). split; [exact H|apply sort_perm].
Qed.
Example space_one_fidelity_ex : length (filter (fun kv => p_fid (snd kv)) ex_l) = 1 /\
  length (filter (fun kv => p_fid (snd kv)) (("e2", PI ex_fid) :: ex_l)) = 2.
Proof. split; reflexivity. Qed.

(** The fidelity it names is the parameter that is one. *)
Theorem space_fidelity : forall lnf expf s k, is_space lnf expf s ->
  (s_fidelity s = Some k <-> exists p, In (k, p) s /\ p_fid p = true).
Proof. intros lnf expf s k S. apply space_wf in S. apply (fidelity_iff lnf expf s k S). Qed.
Example space_fidelity_ex : is_space pln pexp ex_s /\ s_fidelity ex_s = Some "epochs".
Proof. split; [exact ex_s_space|reflexivity]. Qed.

(** Every parameter is exactly one of: numerical, categorical, constant, the fidelity. *)
Theorem space_parts : forall (s : space (option Q)),
  Permutation s (s_numerical s ++ s_categoricals s ++
    filter (fun kv => match snd kv with PK _ => true | _ => false end) s ++ filter (fun kv => p_fid (snd kv)) s).
Proof. exact parts_perm. Qed.
Example space_parts_ex : map fst (s_numerical ex_s) = ["lr"] /\ map fst (s_categoricals ex_s) = ["opt"].
Proof. split; reflexivity. Qed.

(** ** Sampling *)
(** A sample has the parameters of the space, each with a legal value; with [ignore_fidelity]
    the fidelity is as in the space. *)
Theorem sample_legal : forall lnf expf s ign n draws c, is_space lnf expf s -> s_sample (Qar lnf expf) s ign n draws = Ok c ->
  is_space lnf expf c /\ s_def c = s_def s /\
  paired (fun _ p q => if p_fid p && ign then p_value (Qar lnf expf) q = p_value (Qar lnf expf) p
                       else exists v, p_value (Qar lnf expf) q = Some v /\ legal (p_def p) v) s c.
Proof.
  intros lnf expf s ign n draws c S E. apply space_wf in S. destruct (s_sample_inv lnf expf s ign n draws c S E) as (W & K & H).
  split; [apply space_wf; exact W|]. split; [apply (kept_def lnf expf); exact K|exact H].
Qed.
Example sample_legal_ex : is_space pln pexp ex_s /\ s_sample PA ex_s false 1 (ex_draws 0 (1 # 4)) = Ok ex_1 /\
  map (fun kv => p_value PA (snd kv)) (s_categoricals ex_1) = [Some (HC (VStr "a"))].
Proof. split; [exact ex_s_space|split; reflexivity]. Qed.

(** Sampling succeeds, whatever is drawn. *)
Theorem sample_total : forall lnf expf s ign n draws, is_space lnf expf s -> 0 < n ->
  (forall k p, In (k, p) s -> p_fid p && ign = false -> fits p (draws k 0)) -> exists c, s_sample (Qar lnf expf) s ign n draws = Ok c.
Proof. intros lnf expf s ign n draws S. apply space_wf in S. apply s_sample_ok, S. Qed.
Example sample_total_ex : is_space pln pexp ex_s /\ 0 < 1 /\
  (forall k p, In (k, p) ex_s -> p_fid p && false = false -> fits p (ex_draws 3 (1 # 2) k 0)).
Proof.
  split; [exact ex_s_space|]. split; [lia|]. intros k p [[= <- <-]|[[= <- <-]|[[= <- <-]|[[= <- <-]|[]]]]] _; cbn; auto.
Qed.

(** Random search told to ignore the fidelity proposes configurations without a fidelity. *)
Theorem random_search_fidelity_refuted : exists s draws c, is_space pln pexp s /\ random_ask PA s true 1 draws 0 = Ok c /\
  In ("epochs", None) (sc_config c).
Proof.
  exists ex_s, (ex_draws 0 (1 # 4)), (get (mkSampled [] "" None) (random_ask PA ex_s true 1 (ex_draws 0 (1 # 4)) 0)).
  split; [exact ex_s_space|]. split; [lazy; reflexivity|]. lazy. right. left. reflexivity.
Qed.

(** ** The default configuration *)
(** It has every default; where there is none and that is allowed, a legal value. *)
Theorem default_configuration : forall lnf expf s ign im n draws c, is_space lnf expf s ->
  s_sample_default (Qar lnf expf) s ign im n draws = Ok c ->
  is_space lnf expf c /\ s_def c = s_def s /\
  forall k p, In (k, p) s -> exists q, In (k, q) c /\
    if p_fid p && ign then p_value (Qar lnf expf) q = p_value (Qar lnf expf) p
    else match p_default (Qar lnf expf) p with
         | Some d => p_value (Qar lnf expf) q = Some d
         | None => im = true /\ exists v, p_value (Qar lnf expf) q = Some v /\ legal (p_def p) v
         end.
Proof.
  intros lnf expf s ign im n draws c S E. apply space_wf in S. destruct (s_default_inv lnf expf s ign im n draws c S E) as (W & K & H).
  split; [apply space_wf; exact W|]. split; [apply (kept_def lnf expf); exact K|]. intros k p I.
  destruct (H k p (In_lookup k s p (wf_nodup lnf expf s S) I)) as (q & L & X). exists q. split; [apply lookup_In; exact L|].
  destruct (p_fid p && ign); [exact X|]. destruct (p_default (Qar lnf expf) p); exact X.
Qed.
Definition ex_d : space (option Q) := get [] (s_sample_default PA ex_s true true 1 (ex_draws 0 (1 # 4))).
Example default_configuration_ex : is_space pln pexp ex_s /\ s_sample_default PA ex_s true true 1 (ex_draws 0 (1 # 4)) = Ok ex_d /\
  map snd (hp_values PA ex_d) = [Some (HC (VStr "mlp")); None; Some (HN (Some 3%Q)); Some (HC (VInt 2))].
Proof. split; [exact ex_s_space|split; reflexivity]. Qed.

(** It is refused just when a default is missing and may not be. *)
Theorem default_missing : forall lnf expf s ign n draws, is_space lnf expf s -> 0 < n ->
  (forall k p, In (k, p) s -> p_fid p && ign = false -> fits p (draws k 0)) ->
  ((exists c, s_sample_default (Qar lnf expf) s ign false n draws = Ok c) <->
   (forall k p, In (k, p) s -> p_fid p && ign = false -> p_default (Qar lnf expf) p <> None)).
Proof.
  intros lnf expf s ign n draws S N D. apply space_wf in S. split.
  - intros (c & E) k p I F X. exact (s_default_missing lnf expf s ign n draws k p S I F X c E).
  - intros H. apply (s_default_ok lnf expf s ign false n draws S N D). intros k p I F. right. exact (H k p I F).
Qed.
Example default_missing_ex : is_space pln pexp ex_s /\
  s_sample_default PA ex_s false false 1 (ex_draws 0 (1 # 4)) = Err ValueError.
Proof. split; [exact ex_s_space|reflexivity]. Qed.

(** Taking over the current values as defaults leaves out the categoricals. *)
Theorem set_defaults_refuted : exists c d p, is_space pln pexp c /\ complete pln pexp c /\ s_set_defaults PA c = Ok d /\
  In ("opt", p) d /\ p_value PA p = Some (HC (VStr "a")) /\ p_default PA p = Some (HC (VInt 2)).
Proof.
  exists ex_1, (get [] (s_set_defaults PA ex_1)), (PC ex_ca).
  assert (S : is_space pln pexp ex_1) by (apply (sample_legal pln pexp ex_s false 1 _ ex_1 ex_s_space ex_1_of)).
  split; [exact S|]. split.
  - intros k p I. destruct (sample_legal pln pexp ex_s false 1 _ ex_1 ex_s_space ex_1_of) as (_ & D & P).
    destruct (paired_in_r _ _ _ _ _ P I) as (p' & I' & H). rewrite andb_false_r in H. destruct H as (v & V & L). exists v. split; [exact V|].
    pose proof (def_lookup ex_s ex_1 D k) as X.
    rewrite (In_lookup k ex_s p' (wf_nodup pln pexp ex_s (proj1 (space_wf pln pexp ex_s) ex_s_space)) I') in X.
    rewrite (In_lookup k ex_1 p (wf_nodup pln pexp ex_1 (proj1 (space_wf pln pexp ex_1) S)) I) in X. rewrite X. exact L.
  - split; [lazy; reflexivity|]. split; [lazy; right; right; right; left; reflexivity|split; lazy; reflexivity].
Qed.

(** ** Setting values *)
(** Setting to the maximum fidelity changes the fidelity only. *)
Theorem max_fidelity : forall lnf expf s, is_space lnf expf s ->
  match s_fidelity s with
  | None => s_set_to_max_fidelity (Qar lnf expf) s = Err ValueError
  | Some k => exists c p q, s_set_to_max_fidelity (Qar lnf expf) s = Ok c /\ s_def c = s_def s /\
      lookup k s = Some p /\ lookup k c = Some q /\
      (exists x, p_value (Qar lnf expf) q = Some (HN x) /\
         match p_def p with DF _ u _ _ _ _ => x = u | DI _ u _ _ _ _ => x = Some (inject_Z u) | _ => False end) /\
      forall k', k' <> k -> lookup k' c = lookup k' s
  end.
Proof.
  intros lnf expf s S. apply space_wf in S. pose proof (max_fidelity_ok lnf expf s S) as H. destruct (s_fidelity s); [|exact H].
  destruct H as (c & p & q & E & _ & K & H). exists c, p, q. split; [exact E|]. split; [apply (kept_def lnf expf); exact K|exact H].
Qed.
Example max_fidelity_ex : is_space pln pexp ex_1 /\ s_fidelity ex_1 = Some "epochs" /\
  match s_set_to_max_fidelity PA ex_1 with Ok c => lookup "epochs" (hp_values PA c) = Some (Some (HN (Some 9%Q))) | Err _ => False end.
Proof. split; [apply (sample_legal pln pexp ex_s false 1 _ ex_1 ex_s_space ex_1_of)|split; lazy; reflexivity]. Qed.

(** A dict of legal values is taken over; the others stay. *)
Theorem set_from_dict_values : forall lnf expf s d conf, is_space lnf expf s ->
  (forall k v, lookup k d = Some v -> exists x, v = Some x /\ (forall p, lookup k s = Some p -> legal (p_def p) x)) ->
  exists c, s_set_from_dict (Qar lnf expf) s d false true conf false false false = Ok c /\ is_space lnf expf c /\ s_def c = s_def s /\
    paired (fun k p q => p_value (Qar lnf expf) q = match lookup k d with Some v => v | None => p_value (Qar lnf expf) p end) s c.
Proof.
  intros lnf expf s d conf S H. apply space_wf in S. destruct (set_from_dict_ok lnf expf s d conf false S H eq_refl) as (c & E & W & K & X).
  exists c. split; [exact E|]. split; [apply space_wf; exact W|]. split; [apply (kept_def lnf expf); exact K|exact X].
Qed.
Definition ex_set : list (string * option (hval (option Q))) := [("lr", Some (HN (Some 5%Q))); ("other", Some (HN (Some 0%Q)))].
Example set_from_dict_values_ex : is_space pln pexp ex_s /\
  (forall k v, lookup k ex_set = Some v -> exists x, v = Some x /\ (forall p, lookup k ex_s = Some p -> legal (p_def p) x)).
Proof.
  split; [exact ex_s_space|]. intros k v L. apply lookup_In in L. destruct L as [[= <- <-]|[[= <- <-]|[]]]; eexists; (split; [reflexivity|]); intros p [= <-].
  cbn. lra.
Qed.

(** ** Dictionaries *)
(** A complete configuration is serialised, with its values, and read back the same. *)
Theorem serialize_round_trip : forall lnf expf s c, is_space lnf expf s -> is_space lnf expf c -> s_def c = s_def s -> complete lnf expf c ->
  exists d c', s_serialize (Qar lnf expf) c = Ok d /\ map (fun kv => (fst kv, Some (snd kv))) d = hp_values (Qar lnf expf) c /\
    s_from_dict (Qar lnf expf) s (map (fun kv => (fst kv, Some (snd kv))) d) = Ok c' /\
    is_space lnf expf c' /\ s_def c' = s_def s /\ hp_values (Qar lnf expf) c' = hp_values (Qar lnf expf) c.
Proof.
  intros lnf expf s c S C D CO. apply space_wf in S. apply space_wf in C. destruct (serialize_ok lnf expf c CO) as (d & E & V).
  assert (L : forall k, lookup k (hp_values (Qar lnf expf) c) = match lookup k c with Some p => Some (p_value (Qar lnf expf) p) | None => None end).
  { intros k. unfold hp_values. clear. induction c as [|(k', p) c IH]; [reflexivity|]. cbn. destruct (String.eqb k k'); [reflexivity|exact IH]. }
  destruct (from_dict_ok lnf expf s (hp_values (Qar lnf expf) c) S) as (c' & E' & W & K & H).
  - unfold hp_values. rewrite map_map. apply (wf_nodup lnf expf c C).
  - intros k v I. unfold hp_values in I. apply in_map_iff in I. destruct I as ((k', q) & [= -> <-] & I). destruct (CO k q I) as (x & X & LG).
    pose proof (def_lookup s c D k) as Y. rewrite (In_lookup k c q (wf_nodup lnf expf c C) I) in Y. destruct (lookup k s) as [p|]; [|contradiction].
    exists x, p. split; [exact X|]. split; [reflexivity|]. rewrite <- Y. exact LG.
  - exists d, c'. split; [exact E|]. split; [exact V|]. rewrite V. split; [exact E'|]. split; [apply space_wf; exact W|].
    split; [apply (kept_def lnf expf); exact K|].
    assert (N : map fst c' = map fst c).
    { rewrite (paired_names _ _ _ K). apply (f_equal (map fst)) in D. unfold s_def in D. rewrite !map_map in D. symmetry. exact D. }
    unfold hp_values. pose proof (wf_nodup lnf expf c C) as ND.
    assert (X : forall k q, In (k, q) c' -> forall r, In (k, r) c -> p_value (Qar lnf expf) q = p_value (Qar lnf expf) r).
    { intros k q I r J. pose proof (In_lookup k c' q (wf_nodup lnf expf c' W) I) as LQ. pose proof (In_lookup k c r ND J) as LR.
      destruct (kept_lookup_r lnf expf s c' k q K LQ) as (p & LP & _). destruct (H k p LP) as (q' & LQ' & VQ). rewrite LQ in LQ'. injection LQ' as <-.
      rewrite L, LR in VQ. exact VQ. }
    clear -N X. revert c N X. induction c' as [|(k, q) c' IH]; intros [|(k', r) c] N X; try discriminate; [reflexivity|]. cbn in *. injection N as -> N.
    f_equal; [rewrite (X k' q (or_introl eq_refl) r (or_introl eq_refl)); reflexivity|]. apply IH; [exact N|]. intros k0 q0 I r0 J. apply (X k0); right; assumption.
Qed.
Lemma ex_1_space : is_space pln pexp ex_1.
Proof. apply (sample_legal pln pexp ex_s false 1 _ ex_1 ex_s_space ex_1_of). Qed.
Lemma ex_2_space : is_space pln pexp ex_2.
Proof. apply (sample_legal pln pexp ex_s false 1 _ ex_2 ex_s_space ex_2_of). Qed.
Lemma sampled_complete s n draws c : is_space pln pexp s -> s_sample PA s false n draws = Ok c -> complete pln pexp c.
Proof.
  intros S E k p I. destruct (sample_legal pln pexp s false n draws c S E) as (C & D & P).
  destruct (paired_in_r _ _ _ _ _ P I) as (p' & I' & H). rewrite andb_false_r in H. destruct H as (v & V & L). exists v. split; [exact V|].
  pose proof (def_lookup s c D k) as X. rewrite (In_lookup k s p' (wf_nodup pln pexp s (proj1 (space_wf pln pexp s) S)) I') in X.
  rewrite (In_lookup k c p (wf_nodup pln pexp c (proj1 (space_wf pln pexp c) C)) I) in X. rewrite X. exact L.
Qed.
Example serialize_round_trip_ex : is_space pln pexp ex_s /\ is_space pln pexp ex_1 /\ s_def ex_1 = s_def ex_s /\ complete pln pexp ex_1.
Proof.
  split; [exact ex_s_space|]. split; [exact ex_1_space|]. split; [apply (sample_legal pln pexp ex_s false 1 _ ex_1 ex_s_space ex_1_of)|].
  exact (sampled_complete _ _ _ _ ex_s_space ex_1_of).
Qed.

(** What is serialised are the values; a value that is missing raises. *)
Theorem serialize_values : forall lnf expf c,
  match s_serialize (Qar lnf expf) c with
  | Ok d => map (fun kv => (fst kv, Some (snd kv))) d = hp_values (Qar lnf expf) c
  | Err e => e = ValueError /\ exists k p, In (k, p) c /\ p_value (Qar lnf expf) p = None
  end.
Proof.
  intros lnf expf c. destruct (s_serialize (Qar lnf expf) c) as [d|e] eqn:E; [apply serialize_inv; exact E|apply serialize_err; exact E].
Qed.
Example serialize_values_ex : s_serialize PA ex_s = Err ValueError /\ exists d, s_serialize PA ex_1 = Ok d.
Proof. split; [reflexivity|eexists; reflexivity]. Qed.

(** A dict with a name that the space does not have is refused. *)
Theorem from_dict_unknown_name : forall lnf expf s d k, is_space lnf expf s -> In k (map fst d) -> ~ In k (map fst s) ->
  forall c, s_from_dict (Qar lnf expf) s d <> Ok c.
Proof.
  intros lnf expf s d k S I N. apply space_wf in S. apply (from_dict_unknown lnf expf s d k S I). destruct (lookup k s) eqn:L; [|reflexivity].
  destruct N. apply lookup_In in L. apply (in_map fst) in L. exact L.
Qed.
Example from_dict_unknown_name_ex : is_space pln pexp ex_s /\ In "other" (map fst ex_set) /\ ~ In "other" (map fst ex_s) /\
  s_from_dict PA ex_s ex_set = Err KeyError.
Proof. split; [exact ex_s_space|]. split; [cbn; auto|]. split; [cbn; intuition discriminate|reflexivity]. Qed.

Print Assumptions space_alphabetical.
Print Assumptions space_order_free.
Print Assumptions space_one_fidelity.
Print Assumptions space_fidelity.
Print Assumptions space_parts.
Print Assumptions sample_legal.
Print Assumptions sample_total.
Print Assumptions random_search_fidelity_refuted.
Print Assumptions default_configuration.
Print Assumptions default_missing.
Print Assumptions set_defaults_refuted.
Print Assumptions max_fidelity.
Print Assumptions set_from_dict_values.
Print Assumptions serialize_round_trip.
Print Assumptions serialize_values.
Print Assumptions from_dict_unknown_name.
