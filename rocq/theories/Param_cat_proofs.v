(** Proofs about categorical parameters. *)
From Verif Require Import Param_spec Param_proofs Py_proofs.
From Coq Require Import Lqa.
Open Scope nat_scope.
Local Notation length := List.length.

Lemma index_of_some v l i : index_of v l = Some i -> position l v i.
Proof.
  revert i; induction l as [|x l IH]; intros i; cbn [index_of]; [discriminate|].
  destruct (py_eqb x v) eqn:E.
  - intros [= <-]. split; [exists x; split; auto|]. intros j c J. lia.
  - destruct (index_of v l) as [k|]; cbn [option_map]; [|discriminate]. intros [= <-].
    destruct (IH k eq_refl) as [(c & N & C) F]. split; [exists c; split; auto|].
    intros [|j] c' J; cbn [nth_error]; [intros [= <-]; auto|]. intros N'. apply (F j c'); auto. lia.
Qed.
Lemma index_of_none v l : index_of v l = None -> forall c, In c l -> py_eqb c v = false.
Proof.
  induction l as [|x l IH]; cbn [index_of]; [intros _ c []|]. destruct (py_eqb x v) eqn:E; [discriminate|].
  destruct (index_of v l); cbn [option_map]; [discriminate|]. intros _ c [<-|I]; auto.
Qed.
Lemma index_of_choice v l : is_some (index_of v l) = true <-> is_choice l v.
Proof.
  split.
  - destruct (index_of v l) as [i|] eqn:E; [|discriminate]. intros _. destruct (index_of_some _ _ _ E) as [(c & N & C) _].
    exists c. split; [eapply nth_error_In; eauto|auto].
  - intros (c & I & C). destruct (index_of v l) eqn:E; [reflexivity|]. rewrite (index_of_none v l E c I) in C. discriminate.
Qed.

(** [==] on the types of choices. *)
Lemma fl_eqb_euclid x y z : fl_eqb x z = true -> fl_eqb y z = true -> fl_eqb x y = true.
Proof.
  destruct x, y, z; cbn; try discriminate; auto. rewrite !Z.eqb_eq. congruence.
Qed.
Lemma choice_eqb_num a v x : as_num a = Some x -> py_eqb a v = true -> exists y, as_num v = Some y /\ fl_eqb x y = true.
Proof.
  intros N H. rewrite (py_eqb_num a v x N) in H. destruct (as_num v) as [y|]; [eauto|discriminate].
Qed.
Lemma choice_kinds c : choice_type c = true -> (exists s, c = VStr s) \/ exists x, as_num c = Some x.
Proof. destruct c as [|b0| | | | | | |]; cbn; try discriminate; eauto. destruct b0; eauto. Qed.
Lemma str_eqb s v : py_eqb (VStr s) v = true -> v = VStr s.
Proof. destruct v as [|[]| | | | | | |]; cbn; try discriminate. intros H. apply String.eqb_eq in H. congruence. Qed.
Lemma str_eqb_r s v : py_eqb v (VStr s) = true -> v = VStr s.
Proof. destruct v as [|[]| | | | | | |]; cbn; try discriminate. intros H. apply String.eqb_eq in H. congruence. Qed.
Lemma fl_eqb_sym x y : fl_eqb x y = fl_eqb y x.
Proof. destruct x, y; cbn; auto. apply Z.eqb_sym. Qed.
Lemma choice_eqb_sym x v : choice_type x = true -> py_eqb v x = true -> py_eqb x v = true.
Proof.
  intros TX H. destruct (choice_kinds x TX) as [[s ->]|[a NA]].
  - apply str_eqb_r in H. subst v. cbn. apply String.eqb_refl.
  - destruct (as_num v) as [b|] eqn:NB.
    + rewrite (py_eqb_num v x b NB), NA in H. rewrite (py_eqb_num x v a NA), NB, fl_eqb_sym. exact H.
    + exfalso. destruct x; cbn in TX; try discriminate; destruct v as [|[]| | | | | | |]; cbn in *; try discriminate;
      try (destruct b); discriminate.
Qed.
Lemma choice_eqb_euclid a b v : choice_type a = true -> choice_type b = true ->
  py_eqb a v = true -> py_eqb b v = true -> py_eqb a b = true.
Proof.
  intros TA TB HA HB.
  destruct (choice_kinds a TA) as [[s ->]|[x X]].
  - apply str_eqb in HA. subst v. apply str_eqb_r in HB. subst b. cbn. apply String.eqb_refl.
  - destruct (choice_eqb_num a v x X HA) as (y & Y & XY).
    destruct (choice_kinds b TB) as [[s ->]|[z Z]].
    + apply str_eqb in HB. subst v. discriminate.
    + destruct (choice_eqb_num b v z Z HB) as (y' & Y' & ZY). rewrite Y in Y'. injection Y' as <-.
      rewrite (py_eqb_num a b x X), Z. exact (fl_eqb_euclid _ _ _ XY ZY).
Qed.
Lemma unique_nth cs i j a b : all_unique cs = true -> nth_error cs i = Some a -> nth_error cs j = Some b -> i < j ->
  py_eqb a b = false.
Proof.
  revert i j; induction cs as [|x cs IH]; intros i j; cbn [all_unique]; [destruct i; discriminate|].
  intros H. apply andb_true_iff in H. destruct H as [H1 H2]. destruct j as [|j]; [lia|]. destruct i as [|i]; cbn [nth_error].
  - intros [= <-] N _. apply negb_true_iff in H1. destruct (py_eqb x b) eqn:E; [|reflexivity]. exfalso.
    assert (X : existsb (py_eqb x) cs = true) by (apply existsb_exists; exists b; split; [eapply nth_error_In; eauto|auto]). congruence.
  - intros N1 N2 L. apply (IH i j); auto. lia.
Qed.
(** A choice at another position is a different value. *)
Lemma other_choice cs v i j b : forallb choice_type cs = true -> all_unique cs = true -> index_of v cs = Some i -> j <> i ->
  nth_error cs j = Some b -> py_eqb b v = false.
Proof.
  intros TY U I NE N. destruct (index_of_some _ _ _ I) as [(c & NC & C) F].
  destruct (lt_eq_lt_dec j i) as [[L| ->]|L]; [eapply F; eauto|congruence|].
  destruct (py_eqb b v) eqn:E; [|reflexivity]. exfalso. rewrite forallb_forall in TY.
  assert (X : py_eqb c b = true) by (apply (choice_eqb_euclid c b v); auto; apply TY; eapply nth_error_In; eauto).
  rewrite (unique_nth cs i j c b U NC N L) in X. discriminate.
Qed.

Definition c_valid (cs : list pyval) : Prop :=
  1 < length cs /\ forallb choice_type cs = true /\ all_unique cs = true.
Definition cgood (vc : bool) (cs : list pyval) (p : cparam) : Prop :=
  cp_choices p = cs /\ c_valid cs /\ known (cp_conf p) = true /\ cp_prior p = is_some (cp_default p) /\
  match cp_default p with
  | None => cp_default_index p = None
  | Some v => exists i, index_of v cs = Some i /\ cp_default_index p = Some i
  end /\
  (vc = true -> match cp_value p with
   | None => cp_index p = None /\ cp_norm p = None
   | Some v => exists i, index_of v cs = Some i /\ cp_index p = Some i /\ cp_norm p = Some i
   end).

Lemma cnew_good cs d c p : categorical_parameter cs d c = Ok p ->
  cgood true cs p /\ cp_value p = None /\ cp_default p = d /\ cp_conf p = c /\ cp_score p = c.
Proof.
  unfold categorical_parameter. destruct (Nat.leb_spec (length cs) 1) as [|L]; [discriminate|].
  destruct (forallb choice_type cs) eqn:TY; cbn [negb]; [|discriminate].
  destruct (all_unique cs) eqn:U; cbn [negb]; [|discriminate].
  destruct (match d with Some v => negb (mem v cs) | None => false end) eqn:D; [discriminate|].
  destruct (known c) eqn:K; cbn [negb]; [|discriminate]. intros [= <-].
  split; [|auto]. unfold cgood, c_valid. cbn. do 4 (split; [auto|]). split; [|auto].
  destruct d as [v|]; [|reflexivity]. apply negb_false_iff in D. unfold mem in D.
  destruct (index_of v cs) as [i|]; [eauto|discriminate].
Qed.
Lemma cnew_total vc cs p : cgood vc cs p -> categorical_parameter cs (cp_default p) (cp_conf p) =
  Ok (mkC cs (cp_default p) (cp_default_index p) (cp_conf p) (cp_conf p) None None None (cp_prior p)).
Proof.
  intros (C & (L & TY & U) & K & PR & D & _). unfold categorical_parameter.
  destruct (Nat.leb_spec (length cs) 1); [lia|]. rewrite TY, U, K. cbn [negb]. rewrite PR.
  destruct (cp_default p) as [v|]; [|rewrite D; reflexivity]. destruct D as (i & I & DI). unfold mem. rewrite I, DI. reflexivity.
Qed.
Lemma cset_good vc cs p v : cgood vc cs p -> (vc = true -> exists x, snd (c_set_value p v) = Ok x) ->
  cgood vc cs (fst (c_set_value p v)).
Proof.
  intros (C & V & K & PR & D & VV) OK. unfold c_set_value in *. destruct v as [x|].
  - rewrite C in *. destruct (index_of x cs) as [i|] eqn:I; cbn [fst snd] in *; unfold cgood; cbn.
    + do 5 (split; [auto|]). intros _. eauto.
    + do 5 (split; [auto|]). intros VC. destruct (OK VC). discriminate.
  - cbn [fst]. unfold cgood. cbn. do 5 (split; [auto|]). auto.
Qed.
Lemma cdefault_good vc cs p v : cgood vc cs p -> cgood vc cs (fst (c_set_default p v)).
Proof.
  intros (C & V & K & PR & D & VV). unfold c_set_default in *. destruct v as [x|].
  - rewrite C in *. destruct (index_of x cs) as [i|] eqn:I; cbn [fst snd] in *; unfold cgood; cbn; [|auto 10].
    do 4 (split; [auto|]). split; [eauto|auto].
  - cbn [fst]. unfold cgood. cbn. do 5 (split; [auto|]). auto.
Qed.
Lemma cconf_good vc cs p c : cgood vc cs p -> cgood vc cs (fst (c_set_confidence p c)).
Proof. intros G. unfold c_set_confidence. destruct (known c); [|exact G]. exact G. Qed.

Definition c_score_as (p : cparam) (c : string) : cparam :=
  mkC (cp_choices p) (cp_default p) (cp_default_index p) (cp_conf p) c (cp_value p) (cp_index p) (cp_norm p) (cp_prior p).
Lemma cclone_same cs p : cgood true cs p -> c_clone p = Ok (c_score_as p (cp_conf p)).
Proof.
  intros G. pose proof G as (C & V & K & PR & D & VV). unfold c_clone. rewrite C, (cnew_total true cs p G). cbn [bind].
  specialize (VV eq_refl). unfold c_score_as. destruct (cp_value p) as [v|].
  - destruct VV as (i & I & CI & CN). unfold then_ok, c_set_value. cbn [cp_choices]. rewrite I. cbn. rewrite C, CI, CN. reflexivity.
  - destruct VV as [CI CN]. rewrite C, CI, CN. reflexivity.
Qed.
Lemma cclone_good vc cs p q : cgood vc cs p -> c_clone p = Ok q -> cgood true cs q.
Proof.
  intros G. pose proof G as (C & _). unfold c_clone. rewrite C, (cnew_total vc cs p G). cbn [bind].
  destruct (cnew_good cs (cp_default p) (cp_conf p) _ (cnew_total vc cs p G)) as [GN _].
  destruct (cp_value p) as [v|]; [|intros [= <-]; exact GN].
  intros S. apply then_ok_inv in S. destruct S as [x S].
  pose proof (cset_good true cs _ (Some v) GN) as GS. rewrite S in GS. cbn [fst snd] in GS. apply GS. eauto.
Qed.
Lemma cclone_set_good vc cs p x c q : cgood vc cs p -> c_clone p = Ok c -> then_ok (c_set_value c (Some x)) = Ok q ->
  cgood true cs q /\ cp_value q = Some x.
Proof.
  intros G C S. pose proof (cclone_good vc cs p c G C) as GC. apply then_ok_inv in S. destruct S as [y S].
  pose proof (cset_good true cs c (Some x) GC) as GS. rewrite S in GS. cbn [fst snd] in GS. split; [apply GS; eauto|].
  unfold c_set_value in S. destruct (index_of x (cp_choices c)); [|discriminate]. injection S as <- _. reflexivity.
Qed.
Lemma cset_total cs p x : cgood true cs p -> is_choice cs x -> exists q, then_ok (c_set_value p (Some x)) = Ok q.
Proof.
  intros (C & _) I. apply index_of_choice in I. unfold then_ok, c_set_value. rewrite C.
  destruct (index_of x cs); [|discriminate]. eexists. reflexivity.
Qed.
(** A choice is equal to itself unless it is NaN. *)
Lemma choice_refl c : choice_type c = true -> c <> VFloat FNaN -> py_eqb c c = true.
Proof.
  destruct c as [|b|z|f|s| | | |]; cbn; try discriminate; intros _ N.
  - destruct b; reflexivity.
  - apply Z.eqb_refl.
  - destruct f; cbn; [congruence|reflexivity|reflexivity|apply Z.eqb_refl].
  - apply String.eqb_refl.
Qed.
Lemma choice_in cs i x : forallb choice_type cs = true -> no_nan cs -> nth_error cs i = Some x -> is_choice cs x.
Proof.
  intros TY NN N. apply nth_error_In in N. exists x. split; [exact N|]. rewrite forallb_forall in TY. apply choice_refl; [auto|].
  intros ->. contradiction.
Qed.

Lemma csample_good vc cs p draw q : cgood vc cs p -> c_sample p draw = Ok q -> cgood true cs q /\ exists x, nth_error cs draw = Some x /\ cp_value q = Some x.
Proof.
  intros G. unfold c_sample. pose proof G as (C & _). rewrite C. destruct (nth_error cs draw) as [x|]; [|discriminate].
  destruct (c_clone p) as [c|] eqn:CL; cbn [bind]; [|discriminate]. intros S.
  destruct (cclone_set_good vc cs p x c q G CL S). eauto.
Qed.
Lemma csample_total cs p draw : cgood true cs p -> no_nan cs -> draw < length cs ->
  exists q x, c_sample p draw = Ok q /\ nth_error cs draw = Some x /\ cp_value q = Some x.
Proof.
  intros G NN L. pose proof G as (C & (_ & TY & _) & _). unfold c_sample. rewrite C.
  destruct (nth_error cs draw) as [x|] eqn:N; [|apply nth_error_None in N; lia].
  rewrite (cclone_same cs p G). cbn [bind].
  assert (GC : cgood true cs (c_score_as p (cp_conf p))) by exact G.
  destruct (cset_total cs _ x GC (choice_in cs draw x TY NN N)) as [q Q0]. rewrite Q0. exists q, x.
  split; [auto|]. split; [auto|]. destruct (cclone_set_good true cs p x _ q G (cclone_same cs p G) Q0). auto.
Qed.

Lemma available_at cs p i k j : cp_choices p = cs -> i < length cs -> nth_error (c_available p i) k = Some j ->
  j < length cs /\ j <> i.
Proof.
  intros C L N. apply nth_error_In in N. unfold c_available in N. rewrite C in N.
  assert (SQ : seq 0 (length cs) = seq 0 i ++ i :: seq (S i) (length cs - S i)).
  { replace (length cs) with (i + S (length cs - S i)) at 1 by lia. rewrite seq_app. reflexivity. }
  rewrite SQ in N. rewrite firstn_app, skipn_app, seq_length in N.
  rewrite firstn_all2 in N by (rewrite seq_length; lia). rewrite skipn_all2 in N by (rewrite seq_length; lia).
  replace (i - i) with 0 in N by lia. replace (S i - i) with 1 in N by lia. cbn [firstn skipn] in N. rewrite app_nil_r in N. cbn [app] in N.
  apply in_app_iff in N. destruct N as [N|N]; apply in_seq in N; lia.
Qed.
Lemma available_length cs p i : cp_choices p = cs -> i < length cs -> length (c_available p i) = length cs - 1.
Proof. intros C L. unfold c_available. rewrite C, app_length, firstn_length, skipn_length, seq_length. lia. Qed.

Lemma cloop_good vc cs p i draws qs : cgood vc cs p -> i < length cs -> c_neighbour_loop p (c_available p i) draws = Ok qs ->
  length qs = length draws /\ forall q, In q qs -> cgood true cs q /\
    exists j x, j <> i /\ nth_error cs j = Some x /\ cp_value q = Some x.
Proof.
  intros G L. pose proof G as (C & _). revert qs; induction draws as [|k draws IH]; intros qs; cbn [c_neighbour_loop];
    [intros [= <-]; split; [reflexivity|intros q []]|].
  destruct (nth_error (c_available p i) k) as [j|] eqn:J; [|discriminate]. rewrite C.
  destruct (nth_error cs j) as [x|] eqn:X; [|discriminate].
  destruct (c_clone p) as [c|] eqn:CL; cbn [bind]; [|discriminate].
  destruct (then_ok (c_set_value c (Some x))) as [q0|] eqn:S; cbn [bind]; [|discriminate].
  destruct (c_neighbour_loop p (c_available p i) draws) as [l0|]; cbn [bind]; [|discriminate]. intros [= <-].
  destruct (IH l0 eq_refl) as [LN I]. split; [cbn; auto|]. intros q [<-|Q0]; [|auto].
  destruct (cclone_set_good vc cs p x c q0 G CL S) as [GQ VQ]. split; [auto|].
  destruct (available_at cs p i k j C L J). eauto.
Qed.
Lemma index_bound v cs i : index_of v cs = Some i -> i < length cs.
Proof. intros I. destruct (index_of_some _ _ _ I) as [(c & N & _) _]. apply nth_error_Some. congruence. Qed.
Lemma cneighbours_good cs p draws qs : cgood true cs p -> c_neighbours p draws = Ok qs ->
  length qs = length draws /\ exists v, cp_value p = Some v /\ forall q, In q qs -> cgood true cs q /\
    exists x, cp_value q = Some x /\ In x cs /\ py_eqb x v = false.
Proof.
  intros G. pose proof G as (C & (L1 & TY & U) & _ & _ & _ & V). specialize (V eq_refl). unfold c_neighbours.
  destruct (cp_index p) as [i|] eqn:I; [|discriminate]. intros N.
  destruct (cp_value p) as [v|]; [|destruct V; discriminate]. destruct V as (k & K & [= <-] & _).
  destruct (cloop_good true cs p i draws qs G (index_bound _ _ _ K) N) as [LN X]. split; [exact LN|].
  exists v. split; [auto|]. intros q Q0. destruct (X q Q0) as (GQ & j & x & JI & NX & VX). split; [exact GQ|].
  exists x. split; [auto|]. split; [eapply nth_error_In; eauto|]. eapply other_choice; eauto.
Qed.
Lemma cmutate_good cs p parent s draw q : cgood true cs p -> (forall r, parent = Some r -> cgood true cs r) ->
  c_mutate p parent s draw = Ok q ->
  cgood true cs q /\ opt_py_eqb (match parent with Some r => cp_value r | None => cp_value p end) (cp_value q) = false.
Proof.
  intros G GP. unfold c_mutate. set (par := match parent with Some q0 => q0 | None => p end).
  assert (GPAR : cgood true cs par) by (subst par; destruct parent; auto).
  match goal with |- bind ?c _ = _ -> _ => set (child := c) end.
  assert (H : forall r, child = Ok r -> cgood true cs r).
  { subst child. intros r. destruct s; [| |discriminate].
    - intros S. eapply csample_good; eauto.
    - destruct (c_neighbours p [draw]) as [qs|] eqn:N; cbn [bind]; [|discriminate].
      destruct (cneighbours_good cs p _ qs G N) as (_ & v & _ & I). destruct qs as [|q0 qs]; cbn [first]; [discriminate|].
      intros [= <-]. apply I. left; auto. }
  destruct child as [c|]; cbn [bind]; [|discriminate].
  destruct (opt_py_eqb (cp_value par) (cp_value c)) eqn:E; [discriminate|]. intros [= <-]. split; [auto|].
  subst par. destruct parent; exact E.
Qed.
Lemma ccrossover_good cs p p1 p2 q1 q2 : cgood true cs p -> cgood true cs p1 -> (forall r, p2 = Some r -> cgood true cs r) ->
  c_crossover p p1 p2 = Ok (q1, q2) ->
  cgood true cs q1 /\ cgood true cs q2 /\
  cp_value q1 = match p2 with Some r => cp_value r | None => cp_value p end /\ cp_value q2 = cp_value p1.
Proof.
  intros G G1 G2. unfold c_crossover. set (par := match p2 with Some q => q | None => p end).
  assert (GPAR : cgood true cs par) by (subst par; destruct p2; auto).
  replace (match p2 with Some r => cp_value r | None => cp_value p end) with (cp_value par) by (subst par; destruct p2; reflexivity).
  clearbody par. destruct (cp_value p1) as [x|]; [|discriminate]. destruct (cp_value par) as [y|]; [|discriminate].
  destruct (c_clone p1) as [c1|] eqn:C1; cbn [bind]; [|discriminate].
  destruct (then_ok (c_set_value c1 (Some y))) as [d1|] eqn:S1; cbn [bind]; [|discriminate].
  destruct (c_clone par) as [c2|] eqn:C2; cbn [bind]; [|discriminate].
  destruct (then_ok (c_set_value c2 (Some x))) as [d2|] eqn:S2; cbn [bind]; [|discriminate].
  intros [= <- <-]. destruct (cclone_set_good true cs _ _ _ _ G1 C1 S1). destruct (cclone_set_good true cs _ _ _ _ GPAR C2 S2). auto.
Qed.
Lemma creach_good cs p : creach true cs p -> cgood true cs p.
Proof.
  induction 1.
  - eapply cnew_good; eauto.
  - apply cset_good; auto.
  - apply cdefault_good; auto.
  - apply cconf_good; auto.
  - eapply cclone_good; eauto.
  - eapply csample_good; eauto.
  - destruct (cneighbours_good cs p _ _ IHcreach H0) as (_ & v & _ & I). apply I; auto.
  - eapply cmutate_good; eauto.
  - destruct (ccrossover_good cs p p1 p2 q1 q2 IHcreach1 IHcreach2 H2 H3) as (A & B & _). destruct H4; subst; auto.
Qed.

(** Local search always finds another choice. *)
Lemma cmutate_total cs p v k : cgood true cs p -> no_nan cs -> cp_value p = Some v -> k < length cs - 1 ->
  exists q x, c_mutate p None LocalSearch k = Ok q /\ cp_value q = Some x /\ In x cs /\ py_eqb x v = false.
Proof.
  intros G NN V K. pose proof G as (C & (L & TY & U) & _ & _ & _ & VV). specialize (VV eq_refl). rewrite V in VV.
  destruct VV as (i & I & CI & CN). pose proof (index_bound _ _ _ I) as IB.
  assert (N : exists q, c_neighbours p [k] = Ok [q]).
  { unfold c_neighbours. rewrite CI. cbn [c_neighbour_loop].
    destruct (nth_error (c_available p i) k) as [j|] eqn:J;
      [|apply nth_error_None in J; rewrite (available_length cs p i C IB) in J; lia].
    destruct (available_at cs p i k j C IB J) as [JL JI]. rewrite C.
    destruct (nth_error cs j) as [x|] eqn:X; [|apply nth_error_None in X; lia].
    rewrite (cclone_same cs p G). cbn [bind].
    assert (GC : cgood true cs (c_score_as p (cp_conf p))) by exact G.
    destruct (cset_total cs _ x GC (choice_in cs j x TY NN X)) as [q Q0]. rewrite Q0. cbn [bind]. eauto. }
  destruct N as [q N]. destruct (cneighbours_good cs p _ _ G N) as (_ & v' & V' & IQ). rewrite V in V'. injection V' as <-.
  destruct (IQ q (or_introl eq_refl)) as (GQ & x & VX & IX & E). exists q, x.
  split; [|auto]. unfold c_mutate. rewrite N. cbn [bind first]. rewrite V, VX. unfold opt_py_eqb, opt_eqb.
  destruct (py_eqb v x) eqn:Q0; [|reflexivity]. exfalso.
  rewrite forallb_forall in TY. rewrite (choice_eqb_sym x v (TY x IX) Q0) in E. discriminate.
Qed.
