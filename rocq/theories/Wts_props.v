(** C146: a prior of a grammar that is accepted can be sampled from, and means what it says. *)
From Verif Require Import Wts_model Wts_spec Wts_proofs.
From Coq Require Import QArith Qabs Qminmax Lqa String.
Open Scope list_scope.
Local Notation length := List.length.

(** an example: S is either "f S" or "x"; and a prior *)
Definition S_ : str := list_ascii_of_string "S".
Definition gram : grammar := [(S_, [Tm (list_ascii_of_string "f"); Nt S_]); (S_, [Tm (list_ascii_of_string "x")])].
Definition weights : prior := [(S_, [1 # 4; 3 # 4])].
Lemma weights_nonneg : nonneg weights.
Proof. intros n p x [[= <- <-]|[]] J. cbn in J. repeat (destruct J as [<-|J]; [lra|]). destruct J. Qed.
Lemma gram_closed : closed gram.
Proof. intros l r m [[= <- <-]|[[= <- <-]|[]]] J; cbn in J; repeat (destruct J as [J|J]; [try discriminate; injection J as <-; cbn; auto|]); destruct J. Qed.

(** A prior is taken exactly if it has for each left side of the grammar as many numbers as there are productions,
    that sum up to 1 (nearly); otherwise the one before is kept.  None takes the prior away. *)
Theorem accepted_iff : forall G old v, set_prior G old None = (None, Ok tt) /\
 ((set_prior G old (Some v) = (Some v, Ok tt) /\ (forall l r, In (l, r) G -> exists p, assoc l v = Some p /\
     length p = length (filter (fun q => str_eqb (fst q) l) G) /\ Qabs (fold_right Qplus 0 p - 1) <= (1 # 1000000000) * Qmax (Qabs (fold_right Qplus 0 p)) 1)) \/
  (set_prior G old (Some v) = (old, Err RuntimeError) /\ exists l r, In (l, r) G /\ forall p, assoc l v = Some p ->
     length p = length (filter (fun q => str_eqb (fst q) l) G) -> (1 # 1000000000) * Qmax (Qabs (fold_right Qplus 0 p)) 1 < Qabs (fold_right Qplus 0 p - 1))).
Proof.
  intros G old v. split; [reflexivity|]. unfold set_prior. destruct (forallb (check1 G v) (nonterminals G)) eqn:F.
  - left. split; [reflexivity|]. intros l r I. rewrite forallb_forall in F. apply check1_spec. apply F. apply nonterminals_in. exact (in_map fst _ _ I).
  - right. split; [reflexivity|]. assert (X : exists n, In n (nonterminals G) /\ check1 G v n = false).
    { induction (nonterminals G) as [|n ns IH]; [discriminate|]. cbn in F. destruct (check1 G v n) eqn:E; [|exists n; split; [left; reflexivity|exact E]]. destruct (IH F) as (m & I & H). exists m. split; [right; exact I|exact H]. }
    destruct X as (n & I & C). apply nonterminals_in in I. apply in_map_iff in I. destruct I as ((l & r) & E & I). cbn in E. subst l. exists n, r. split; [exact I|].
    intros p A L. apply Qnot_le_lt. intros H. rewrite (proj2 (check1_spec G v n)) in C; [discriminate|]. exists p. auto.
Qed.
Example accepted_iff_ex : set_prior gram None (Some weights) = (Some weights, Ok tt) /\ set_prior gram (Some weights) (Some [(S_, [1 # 4; 1 # 4])]) = (Some weights, Err RuntimeError) /\
  set_prior gram (Some weights) None = (None, Ok tt).
Proof. split; [|split]; lazy; reflexivity. Qed.
(** If moreover its numbers are at least 0, then a production is drawn for each left side, the one with number j
    for the u of an interval whose length is the probability of j. *)
Theorem drawn_with_probability : forall G old v n u, set_prior G old (Some v) = (Some v, Ok tt) -> nonneg v -> In n (map fst G) -> 0 <= u -> u < 1 ->
  exists p i, assoc n v = Some p /\ length p = length (rules G n) /\ 0 < fold_right Qplus 0 p /\ pick G v n u = Ok i /\
    forall j, i = j <-> fold_right Qplus 0 (firstn j p) <= u * fold_right Qplus 0 p /\ u * fold_right Qplus 0 p < fold_right Qplus 0 (firstn j p) + nth j p 0.
Proof.
  intros G old v n u AC NN I U0 U1. destruct (pick_spec G old v AC NN n u I U0 U1) as (p & i & E & L & TP & K & S). exists p, i. split; [exact E|]. split; [exact L|]. split; [exact TP|]. split; [exact K|].
  intros j. rewrite S, total_step. reflexivity.
Qed.
Example drawn_with_probability_ex : set_prior gram None (Some weights) = (Some weights, Ok tt) /\ nonneg weights /\
  pick gram weights S_ (24 # 100) = Ok 0%nat /\ pick gram weights S_ (1 # 4) = Ok 1%nat /\ pick gram weights S_ (99 # 100) = Ok 1%nat.
Proof. split; [lazy; reflexivity|]. split; [exact weights_nonneg|]. split; [|split]; lazy; reflexivity. Qed.
(** Then sampling does not fail, and uses no production whose probability is 0. *)
Theorem samples_are_possible : forall G old v fuel n us, set_prior G old (Some v) = (Some v, Ok tt) -> nonneg v -> closed G -> In n (map fst G) -> Forall (fun u => 0 <= u /\ u < 1) us ->
  samplew G v fuel n us [] = Err OutOfFuel \/ exists t us' c, samplew G v fuel n us [] = Ok (t, us', c) /\ possible G v n t.
Proof.
  intros G old v fuel n us AC NN CL I U. destruct (sample_good G old v AC NN CL fuel n us [] I U) as [E|(t & us' & c & E & P & _)]; [intros m t; discriminate|left; exact E|right; exists t, us', c; auto].
Qed.
Example samples_are_possible_ex : closed gram /\
  bind (samplew gram weights 9 S_ [1 # 8; 1 # 8; 1 # 2] []) (fun '(t, _, _) => Ok (string_of_list_ascii t)) = Ok "(S f (S f (S x))"%string.
Proof. split; [exact gram_closed|]. lazy. reflexivity. Qed.
(** A new random number is used for each production that is drawn: one for the tree itself, and one for each text
    put into the cache. *)
Theorem fresh_numbers : forall G v fuel n us t us' c, samplew G v fuel n us [] = Ok (t, us', c) -> exists used, us = used ++ us' /\ length used = S (length c).
Proof. intros G v fuel n us t us' c H. destruct (sample_uses _ _ _ _ _ _ _ _ _ H) as (l & E & L). exists l. split; [exact E|]. cbn in L. lia. Qed.
Example fresh_numbers_ex : exists t c, samplew gram weights 9 S_ [1 # 8; 1 # 8; 1 # 2; 1 # 3] [] = Ok (t, [1 # 3], c) /\ length c = 2%nat.
Proof. eexists _, _. split; lazy; reflexivity. Qed.
(** But that they are at least 0 is not checked: a prior can be taken with which no production can ever be drawn. *)
Theorem negative_accepted_refuted : exists G v n, init G = Ok G /\ closed G /\ In n (map fst G) /\ set_prior G None (Some v) = (Some v, Ok tt) /\
  forall fuel us u, samplew G v (S fuel) n (u :: us) [] = Err ValueError.
Proof.
  exists gram, [(S_, [- (1 # 2); 3 # 2])], S_. split; [lazy; reflexivity|]. split; [exact gram_closed|]. split; [cbn; auto|]. split; [lazy; reflexivity|]. intros fuel us u. reflexivity.
Qed.
(** And that nonterminals on the right have productions is not checked either: such a grammar and prior are taken,
    and sampling fails. *)
Theorem no_production_refuted : exists G v n, init G = Ok G /\ set_prior G None (Some v) = (Some v, Ok tt) /\ nonneg v /\ In n (map fst G) /\
  forall fuel us u u', 0 <= u -> u < 1 -> samplew G v (S (S fuel)) n (u :: u' :: us) [] = Err RuntimeError.
Proof.
  pose (G := [(S_, [Nt (list_ascii_of_string "T")])]). pose (v := [(S_, [1])] : prior). exists G, v, S_. assert (AC : set_prior G None (Some v) = (Some v, Ok tt)) by (lazy; reflexivity).
  assert (NN : nonneg v). { intros n p x [[= <- <-]|[]] J. destruct J as [<-|[]]. lra. }
  split; [lazy; reflexivity|]. split; [exact AC|]. split; [exact NN|]. split; [cbn; auto|]. intros fuel us u u' U0 U1.
  destruct (pick_likely G None v AC NN S_ u (or_introl eq_refl) U0 U1) as (i & r & K & N & _). cbn [samplew]. rewrite K. cbn [bind]. rewrite N. cbn [snd].
  change (rules G S_) with G in N. destruct i as [|[|i]]; [|discriminate|discriminate]. cbn in N. injection N as <-. reflexivity.
Qed.

Print Assumptions accepted_iff.
Print Assumptions drawn_with_probability.
Print Assumptions samples_are_possible.
Print Assumptions fresh_numbers.
Print Assumptions negative_accepted_refuted.
Print Assumptions no_production_refuted.
