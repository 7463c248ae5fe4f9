(** Proofs about float parameters, any arithmetic. *)
From Verif Require Import Param_spec.
From Coq Require Import Lqa.
Open Scope nat_scope.
Local Notation length := List.length.

Lemma then_ok_inv {P} (r : P * res unit) q : then_ok r = Ok q -> exists x, r = (q, Ok x).
Proof. destruct r as [p [x|e]]; unfold then_ok; cbn; [intros [= <-]; eauto|discriminate]. Qed.

Section Float.
  Context {T : Type} (A : arith T).

  Definition f_score_as (p : fparam T) (c : string) : fparam T :=
    mkF (fp_lower p) (fp_upper p) (fp_log p) (fp_fid p) (fp_default p) (fp_conf p) c (fp_value p) (fp_norm p)
        (fp_prior p) (fp_lb p) (fp_ld p) (fp_dom p).

  Definition within (l u x : T) : bool := ale A l x && ale A x u.

  (** The object is the newly constructed one, dressed with a score and a value. *)
  Definition fgood (l u : T) (p : fparam T) : Prop := exists p0,
    float_parameter A l u (fp_log p) (fp_fid p) (fp_default p) (fp_conf p) = Ok p0 /\
    p = f_with_value (f_score_as p0 (fp_score p)) (fp_value p) (fp_norm p) /\
    match fp_value p with
    | None => fp_norm p = None
    | Some x => within l u x = true /\ exists n, f_to_norm A p0 x = Ok n /\ fp_norm p = Some n
    end.

  Lemma new_fields l u log fid d c p : float_parameter A l u log fid d c = Ok p ->
    exists dom, floating A l u log None false = Ok dom /\ ale A u l = false /\
    (log && (ale A l (aZ A 0) || ale A u (aZ A 0)) = false) /\
    (forall x, d = Some x -> within l u x = true) /\ known c = true /\
    p = mkF l u log fid d c c None None (is_some d) (if log then Some (aln A l, aln A u) else None)
          (if log then opt_map (aln A) d else None) dom.
  Proof.
    unfold float_parameter. destruct (floating A l u log None false) as [dom|]; cbn [bind]; [|discriminate].
    destruct (ale A u l); [discriminate|].
    destruct (log && (ale A l (aZ A 0) || ale A u (aZ A 0))); [discriminate|].
    intros P. exists dom. split; [auto|]. split; [auto|]. split; [auto|].
    destruct d as [x|].
    - fold (within l u x) in P. destruct (within l u x) eqn:W; cbn [negb] in P; [|discriminate].
      destruct (known c) eqn:K; cbn [negb] in P; [|discriminate]. injection P as <-.
      split; [intros ? [= <-]; auto|]. auto.
    - destruct (known c) eqn:K; cbn [negb] in P; [|discriminate]. injection P as <-.
      split; [discriminate|]. auto.
  Qed.
  Lemma new_from l u log fid d c dom : floating A l u log None false = Ok dom -> ale A u l = false ->
    (log && (ale A l (aZ A 0) || ale A u (aZ A 0)) = false) ->
    (forall x, d = Some x -> within l u x = true) -> known c = true ->
    float_parameter A l u log fid d c = Ok (mkF l u log fid d c c None None (is_some d)
      (if log then Some (aln A l, aln A u) else None) (if log then opt_map (aln A) d else None) dom).
  Proof.
    intros D L G W K. unfold float_parameter. rewrite D. cbn [bind]. rewrite L, G, K. cbn [negb].
    destruct d as [x|]; [|reflexivity]. specialize (W x eq_refl). unfold within in W. rewrite W. reflexivity.
  Qed.

  Lemma new_good l u log fid d c p : float_parameter A l u log fid d c = Ok p -> fgood l u p.
  Proof.
    intros P. pose proof P as P'. destruct (new_fields _ _ _ _ _ _ _ P) as (dom & _ & _ & _ & _ & _ & E).
    exists p. rewrite E at 1 2 3 4. cbn [fp_log fp_fid fp_default fp_conf]. split; [exact P'|].
    rewrite E. split; reflexivity.
  Qed.

  Lemma good_bounds l u p : fgood l u p -> fp_lower p = l /\ fp_upper p = u.
  Proof.
    intros (p0 & P & E & _). destruct (new_fields _ _ _ _ _ _ _ P) as (dom & _ & _ & _ & _ & _ & E0).
    rewrite E, E0. split; reflexivity.
  Qed.
  Lemma good_fields l u p : fgood l u p ->
    exists dom, floating A l u (fp_log p) None false = Ok dom /\ ale A u l = false /\
    (fp_log p && (ale A l (aZ A 0) || ale A u (aZ A 0)) = false) /\
    (forall x, fp_default p = Some x -> within l u x = true) /\ known (fp_conf p) = true /\
    p = mkF l u (fp_log p) (fp_fid p) (fp_default p) (fp_conf p) (fp_score p) (fp_value p) (fp_norm p)
          (is_some (fp_default p)) (if fp_log p then Some (aln A l, aln A u) else None)
          (if fp_log p then opt_map (aln A) (fp_default p) else None) dom.
  Proof.
    intros (p0 & P & E & _). destruct (new_fields _ _ _ _ _ _ _ P) as (dom & D & L & G & W & K & E0).
    exists dom. do 5 (split; [assumption|]). rewrite E at 1. rewrite E0. reflexivity.
  Qed.

  Lemma to_norm_same p q x : fp_log p = fp_log q -> fp_lb p = fp_lb q -> fp_lower p = fp_lower q ->
    fp_upper p = fp_upper q -> f_to_norm A p x = f_to_norm A q x.
  Proof. intros E1 E2 E3 E4. unfold f_to_norm, f_bounds. rewrite E1, E2, E3, E4. reflexivity. Qed.

  Lemma good_to_norm l u p x : fgood l u p -> exists n, f_to_norm A p x = Ok n.
  Proof.
    intros G. destruct (good_fields l u p G) as (dom & _ & _ & _ & _ & _ & E). rewrite E.
    unfold f_to_norm, f_bounds. cbn. destruct (fp_log p); cbn [bind]; eauto.
  Qed.

  Lemma good_value l u p x : fgood l u p -> fp_value p = Some x ->
    within l u x = true /\ exists n, f_to_norm A p x = Ok n /\ fp_norm p = Some n.
  Proof.
    intros (p0 & P & E & V) X. rewrite X in V. destruct V as (W & n & N & NV). split; [auto|].
    exists n. split; [|auto]. rewrite <- N. apply to_norm_same; rewrite E; reflexivity.
  Qed.
  Lemma good_novalue l u p : fgood l u p -> fp_value p = None -> fp_norm p = None.
  Proof. intros (p0 & P & E & V) X. rewrite X in V. exact V. Qed.

  (** [f_set_value]: refused, and nothing happens, or accepted. *)
  Lemma set_cases l u p v : fgood l u p ->
    (exists x, v = Some x /\ within l u x = false /\ f_set_value A p v = (p, Err ValueError)) \/
    (v = None /\ f_set_value A p v = (f_with_value p None None, Ok tt)) \/
    (exists x n, v = Some x /\ within l u x = true /\ f_to_norm A p x = Ok n /\
       f_set_value A p v = (f_with_value p (Some x) (Some n), Ok tt)).
  Proof.
    intros G. destruct v as [x|]; [|right; left; split; reflexivity].
    destruct (good_bounds _ _ _ G) as [L U]. unfold f_set_value. rewrite L, U. fold (within l u x).
    destruct (within l u x) eqn:W; cbn [negb].
    - right; right. destruct (good_to_norm l u p x G) as [n N]. exists x, n. rewrite N. auto.
    - left. exists x. auto.
  Qed.
  Lemma with_value_good l u p v n : fgood l u p ->
    match v with None => n = None | Some x => within l u x = true /\ exists y, f_to_norm A p x = Ok y /\ n = Some y end ->
    fgood l u (f_with_value p v n).
  Proof.
    intros (p0 & P & E & V) H. exists p0. cbn [f_with_value fp_log fp_fid fp_default fp_conf fp_score fp_value fp_norm].
    split; [exact P|]. split; [rewrite E; reflexivity|]. destruct v as [x|]; [|exact H].
    destruct H as (W & y & Y & N). split; [exact W|]. exists y. split; [|exact N]. rewrite <- Y.
    apply to_norm_same; rewrite E; reflexivity.
  Qed.
  Lemma set_good l u p v : fgood l u p -> fgood l u (fst (f_set_value A p v)).
  Proof.
    intros G. destruct (set_cases l u p v G) as [(x & _ & _ & E)|[(_ & E)|(x & n & _ & W & N & E)]]; rewrite E; cbn [fst].
    - exact G.
    - apply with_value_good; auto.
    - apply with_value_good; auto. split; [auto|]. eauto.
  Qed.
  Lemma default_good l u p v : fgood l u p -> fgood l u (fst (f_set_default A p v)).
  Proof.
    intros G. destruct (good_fields l u p G) as (dom & D & L & LG & W & K & E).
    assert (H : forall d, (forall x, d = Some x -> within l u x = true) ->
      fgood l u (mkF l u (fp_log p) (fp_fid p) d (fp_conf p) (fp_score p) (fp_value p) (fp_norm p) (is_some d)
        (if fp_log p then Some (aln A l, aln A u) else None) (if fp_log p then opt_map (aln A) d else None) dom)).
    { intros d WD. eexists. cbn [fp_log fp_fid fp_default fp_conf fp_score fp_value fp_norm].
      split; [apply (new_from l u (fp_log p) (fp_fid p) d (fp_conf p) dom); auto|]. split; [reflexivity|].
      destruct (fp_value p) as [x|] eqn:V; [|apply (good_novalue l u p G V)].
      destruct (good_value l u p x G V) as (WX & n & N & NV). split; [exact WX|]. exists n. split; [|exact NV].
      rewrite <- N. apply to_norm_same; rewrite E; reflexivity. }
    destruct (good_bounds _ _ _ G) as [LB UB].
    destruct v as [x|]; unfold f_set_default; cbn [fst].
    - rewrite LB, UB. fold (within l u x). destruct (within l u x) eqn:WX; cbn [negb fst]; [|exact G].
      replace (mkF l u (fp_log p) (fp_fid p) (Some x) (fp_conf p) (fp_score p) (fp_value p) (fp_norm p) true (fp_lb p)
        (if fp_log p then Some (aln A x) else fp_ld p) (fp_dom p))
      with (mkF l u (fp_log p) (fp_fid p) (Some x) (fp_conf p) (fp_score p) (fp_value p) (fp_norm p) (is_some (Some x))
        (if fp_log p then Some (aln A l, aln A u) else None) (if fp_log p then opt_map (aln A) (Some x) else None) dom).
      + apply H. intros ? [= <-]. exact WX.
      + rewrite E. cbn. destruct (fp_log p); reflexivity.
    - rewrite LB, UB.
      replace (mkF l u (fp_log p) (fp_fid p) None (fp_conf p) (fp_score p) (fp_value p) (fp_norm p) false (fp_lb p)
        None (fp_dom p))
      with (mkF l u (fp_log p) (fp_fid p) None (fp_conf p) (fp_score p) (fp_value p) (fp_norm p) (is_some (@None T))
        (if fp_log p then Some (aln A l, aln A u) else None) (if fp_log p then opt_map (aln A) None else None) dom).
      + apply H. discriminate.
      + rewrite E. cbn. destruct (fp_log p); reflexivity.
  Qed.
  Lemma conf_good l u p c : fgood l u p -> fgood l u (fst (f_set_confidence p c)).
  Proof.
    intros (p0 & P & E & V). unfold f_set_confidence. destruct (known c); cbn [fst]; [|exists p0; auto].
    exists p0. cbn [fp_log fp_fid fp_default fp_conf fp_score fp_value fp_norm]. split; [exact P|].
    split; [rewrite E; reflexivity|]. exact V.
  Qed.

  (** The clone is the object, but for the confidence. *)
  Lemma clone_same l u p : fgood l u p -> f_clone A p = Ok (f_score_as p (fp_conf p)).
  Proof.
    intros G. destruct (good_bounds _ _ _ G) as [LB UB]. pose proof G as (p0 & P & E & V).
    unfold f_clone. rewrite LB, UB, P. cbn [bind].
    destruct (new_fields _ _ _ _ _ _ _ P) as (dom & _ & _ & _ & _ & _ & E0).
    destruct (fp_value p) as [x|] eqn:X.
    - destruct V as (W & n & N & NV).
      destruct (set_cases l u p0 (Some x) (new_good _ _ _ _ _ _ _ P)) as [(? & [= <-] & W' & _)|[(? & _)|(? & n' & [= <-] & _ & N' & S)]];
        [congruence|discriminate|].
      rewrite S. unfold then_ok. cbn [snd fst]. rewrite N in N'. injection N' as <-. f_equal. rewrite E, E0, NV. reflexivity.
    - f_equal. rewrite E, E0, V. reflexivity.
  Qed.
  Lemma score_good l u p c : fgood l u p -> fgood l u (f_score_as p c).
  Proof.
    intros (p0 & P & E & V). exists p0. cbn [f_score_as fp_log fp_fid fp_default fp_conf fp_score fp_value fp_norm].
    split; [exact P|]. split; [rewrite E; reflexivity|]. exact V.
  Qed.
  Lemma clone_good l u p q : fgood l u p -> f_clone A p = Ok q -> fgood l u q.
  Proof. intros G C. rewrite (clone_same l u p G) in C. injection C as <-. apply score_good, G. Qed.
  Lemma clone_set_good l u p x c q : fgood l u p -> f_clone A p = Ok c -> then_ok (f_set_value A c (Some x)) = Ok q ->
    fgood l u q /\ fp_value q = Some x /\ within l u x = true.
  Proof.
    intros G C S. pose proof (clone_good l u p c G C) as GC. apply then_ok_inv in S. destruct S as [y S].
    destruct (set_cases l u c (Some x) GC) as [(? & _ & _ & E)|[(? & _)|(? & n & [= <-] & W & _ & E)]];
      [congruence|discriminate|].
    pose proof (set_good l u c (Some x) GC) as GQ. rewrite E in *. injection S as <- _. auto.
  Qed.

  Lemma neighbour_loop_good l u p : fgood l u p -> forall draws n qs, f_neighbour_loop A p n draws = Ok qs ->
    length qs = n /\ forall q, In q qs -> fgood l u q /\ exists x, fp_value q = Some x /\ within l u x = true.
  Proof.
    intros G. induction draws as [|x draws IH]; intros [|n] qs; cbn [f_neighbour_loop]; try discriminate;
      try (intros [= <-]; split; [reflexivity|intros q []]).
    destruct (altb A x (aZ A 0) || altb A (aZ A 1) x); [apply IH|].
    destruct (f_of_norm A p x) as [v|]; cbn [bind]; [|discriminate].
    destruct (f_clone A p) as [c|] eqn:C; cbn [bind]; [|discriminate].
    destruct (then_ok (f_set_value A c (Some v))) as [q0|] eqn:S; cbn [bind]; [|discriminate].
    destruct (f_neighbour_loop A p n draws) as [l0|] eqn:R; cbn [bind]; [|discriminate].
    intros [= <-]. destruct (IH n l0 R) as [L I]. split; [cbn; auto|]. intros q [<-|J]; [|auto].
    destruct (clone_set_good l u p v c q0 G C S) as (GQ & VQ & W). split; [auto|]. eauto.
  Qed.
  Lemma neighbours_good l u p n draws qs : fgood l u p -> f_neighbours A p n draws = Ok qs ->
    length qs = n /\ forall q, In q qs -> fgood l u q /\ exists x, fp_value q = Some x /\ within l u x = true.
  Proof.
    intros G. unfold f_neighbours. destruct (fp_value p) as [x|]; [|discriminate].
    destruct (f_to_norm A p x); cbn [bind]; [|discriminate]. apply neighbour_loop_good, G.
  Qed.
  Lemma mutate_good l u p parent s draw draws q : fgood l u p -> f_mutate A p parent s draw draws = Ok q ->
    fgood l u q /\
    opt_T_eqb A (match parent with Some r => fp_value r | None => fp_value p end) (fp_value q) = false.
  Proof.
    intros G. unfold f_mutate. destruct (fp_fid p); [discriminate|].
    match goal with |- bind ?c _ = _ -> _ => set (child := c) end.
    assert (H : forall r, child = Ok r -> fgood l u r).
    { subst child. intros r. destruct s; [| |discriminate].
      - destruct (f_clone A p) as [c|] eqn:C; cbn [bind]; [|discriminate].
        destruct (f_sample A c draw); cbn [bind]; [|discriminate]. intros [= <-]. eapply clone_good; eauto.
      - destruct (f_neighbours A p 1 draws) as [qs|] eqn:N; cbn [bind]; [|discriminate].
        destruct (neighbours_good l u p 1 draws qs G N) as [_ I]. destruct qs as [|q0 qs]; cbn [first]; [discriminate|].
        intros [= <-]. apply I. left; auto. }
    destruct child as [c|]; cbn [bind]; [|discriminate].
    destruct (opt_T_eqb A (fp_value match parent with Some q0 => q0 | None => p end) (fp_value c)) eqn:E; [discriminate|].
    intros [= <-]. split; [auto|]. destruct parent; exact E.
  Qed.
  Lemma crossover_good l u p p1 p2 draws q1 q2 : fgood l u p -> f_crossover A p p1 p2 draws = Ok (q1, q2) ->
    forall q, q = q1 \/ q = q2 -> fgood l u q /\ exists x, fp_value q = Some x /\ within l u x = true.
  Proof.
    intros G. unfold f_crossover. destruct (fp_fid p); [discriminate|].
    destruct (fp_value p1) as [x|]; [|discriminate].
    destruct (fp_value match p2 with Some q => q | None => p end) as [y|]; [|discriminate].
    destruct (f_clone A p) as [c|] eqn:C; cbn [bind]; [|discriminate].
    destruct (then_ok (f_set_value A c (Some (adiv A (aadd A x y) (aZ A 2))))) as [c'|] eqn:S; cbn [bind]; [|discriminate].
    destruct (clone_set_good l u p _ c c' G C S) as (GC & _ & _).
    destruct (f_neighbours A c' 2 draws) as [qs|] eqn:N; cbn [bind]; [|discriminate].
    destruct (neighbours_good l u c' 2 draws qs GC N) as [_ I].
    destruct qs as [|a [|b [|? ?]]]; try discriminate. intros [= <- <-] q [->| ->]; apply I; cbn; auto.
  Qed.
  Lemma sample_good l u p draw q : fgood l u p -> f_sample A p draw = Ok q ->
    fgood l u q /\ fp_value q = Some (f_sample_value A p draw) /\ within l u (f_sample_value A p draw) = true.
  Proof.
    intros G. unfold f_sample. destruct (f_clone A p) as [c|] eqn:C; cbn [bind]; [|discriminate].
    intros S. eapply clone_set_good; eauto.
  Qed.

  Lemma freach_good l u p : freach A l u p -> fgood l u p.
  Proof.
    induction 1.
    - eapply new_good; eauto.
    - apply set_good; auto.
    - apply default_good; auto.
    - apply conf_good; auto.
    - apply set_good; auto.
    - eapply clone_good; eauto.
    - eapply sample_good; eauto.
    - eapply neighbours_good; eauto.
    - eapply mutate_good; eauto.
    - eapply crossover_good; eauto.
  Qed.
End Float.
