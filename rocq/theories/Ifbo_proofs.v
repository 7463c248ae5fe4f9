(** ifBO: identifiers, the fidelities, and the runs. *)
From Verif Require Import Ifbo_spec Ifbo_adjust_proofs Space_proofs Space_more_proofs Space_ops_proofs Space_mut_proofs Space_ask_proofs Param_proofs Param_int_proofs Dom_spec Dom_proofs Dom_cast_proofs Py_proofs Enc_proofs Space_spec.
From Coq Require Import Lqa Permutation Sorted.
From Coq Require Decimal DecimalString DecimalNat.
Open Scope nat_scope.
Local Notation length := List.length.

(** ** Identifiers *)
Fixpoint no_us (s : string) : bool :=
  match s with EmptyString => true | String c r => negb (Ascii.eqb c "_"%char) && no_us r end.
Lemma before_us_app s r : no_us s = true -> before_us (s ++ String "_" r) = s.
Proof.
  induction s as [|c s IH]; cbn; [reflexivity|]. destruct (Ascii.eqb c "_"%char); [discriminate|]. cbn. intros H. rewrite IH by exact H. reflexivity.
Qed.
Lemma digits_no_us d : no_us (DecimalString.NilEmpty.string_of_uint d) = true.
Proof. induction d as [|d IH|d IH|d IH|d IH|d IH|d IH|d IH|d IH|d IH|d IH]; cbn; auto. Qed.
Lemma str_nat_no_us n : no_us (py_str_nat n) = true.
Proof. unfold py_str_nat, DecimalString.NilZero.string_of_uint. destruct (Nat.to_uint n); try reflexivity; apply digits_no_us. Qed.
Lemma py_int_str n : py_int (py_str_nat n) = Ok n.
Proof.
  unfold py_int, py_str_nat.
  assert (X : Nat.to_uint n <> Decimal.Nil).
  { intros H. apply (f_equal Nat.of_uint) in H as H2. rewrite DecimalNat.Unsigned.of_to in H2. cbn in H2. subst n. discriminate. }
  rewrite DecimalString.NilZero.usu by exact X. rewrite DecimalNat.Unsigned.of_to. reflexivity.
Qed.
Lemma cid_of_id c k : cid_of (ifbo_id c k) = Ok c.
Proof. unfold cid_of, ifbo_id. change ("_" ++ py_str_Z k)%string with (String "_" (py_str_Z k)). rewrite before_us_app by apply str_nat_no_us. apply py_int_str. Qed.
Lemma append_cancel a x y : (a ++ x = a ++ y)%string -> x = y.
Proof. induction a as [|c a IH]; cbn; auto. intros H. injection H as H. auto. Qed.
Lemma str_Z_inj x y : (0 <= x)%Z -> (0 <= y)%Z -> py_str_Z x = py_str_Z y -> x = y.
Proof.
  intros X Y. unfold py_str_Z. destruct (Z.ltb_spec x 0); [lia|]. destruct (Z.ltb_spec y 0); [lia|]. intros H'. apply str_nat_inj in H'. lia.
Qed.
Lemma ifbo_id_inj c k c' k' : (0 <= k)%Z -> (0 <= k')%Z -> ifbo_id c k = ifbo_id c' k' -> c = c' /\ k = k'.
Proof.
  intros K K' E. pose proof (f_equal cid_of E) as H. rewrite !cid_of_id in H. injection H as <-. split; [reflexivity|].
  unfold ifbo_id in E. apply append_cancel, (append_cancel "_") in E. apply str_Z_inj; assumption.
Qed.

(** ** The highest budgets *)
Section Sort.
  Context {T V : Type} (A : arith T).
  Notation row := (row T V).
  Lemma insert_by_perm le (x : row) l : Permutation (x :: l) (insert_by le x l).
  Proof.
    induction l as [|y l IH]; cbn; [auto|]. destruct (le x y); [auto|]. eapply perm_trans; [apply perm_swap|]. apply perm_skip, IH.
  Qed.
  Lemma sort_by_perm le (l : list row) : Permutation l (sort_by le l).
  Proof. induction l as [|x l IH]; cbn; [auto|]. eapply perm_trans; [apply perm_skip, IH|]. apply insert_by_perm. Qed.
  Lemma last_of_each_in (l : list row) r : In r (last_of_each l) -> In r l.
  Proof.
    induction l as [|x l IH]; cbn; [auto|]. destruct l as [|y l]; [auto|]. destruct (Nat.eqb (r_id x) (r_id y)); [auto|].
    intros [<-|H]; auto.
  Qed.
  Hypothesis le_trans : forall x y z : row, budget_le A x y = true -> budget_le A y z = true -> budget_le A x z = true.
  Hypothesis le_total : forall x y : row, budget_le A x y = false -> budget_le A y x = true.
  Definition lex (x y : row) : Prop := r_id x < r_id y \/ (r_id x = r_id y /\ budget_le A x y = true).

  Lemma insert_budget (x : row) l : StronglySorted (fun a b => budget_le A a b = true) l -> StronglySorted (fun a b => budget_le A a b = true) (insert_by (budget_le A) x l).
  Proof.
    induction 1 as [|y l S IH F]; cbn; [constructor; constructor|]. destruct (budget_le A x y) eqn:E.
    - constructor; [constructor; assumption|]. constructor; [exact E|]. eapply Forall_impl; [|exact F]. intros z Z. eapply le_trans; eauto.
    - constructor; [exact IH|]. eapply Permutation_Forall; [apply insert_by_perm|]. constructor; [apply le_total, E|exact F].
  Qed.
  Lemma sort_budget (l : list row) : StronglySorted (fun a b => budget_le A a b = true) (sort_by (budget_le A) l).
  Proof. induction l as [|x l IH]; cbn; [constructor|]. apply insert_budget, IH. Qed.
  Lemma insert_lex (x : row) l : StronglySorted lex l -> Forall (fun y => budget_le A x y = true) l -> StronglySorted lex (insert_by id_le x l).
  Proof.
    induction 1 as [|y l S IH F]; intros B; cbn; [constructor; constructor|]. inversion B as [|? ? B1 B2]; subst. unfold id_le at 1.
    destruct (Nat.leb_spec (r_id x) (r_id y)) as [E|E].
    - constructor; [constructor; assumption|]. constructor.
      + unfold lex. destruct (Nat.lt_ge_cases (r_id x) (r_id y)); [left; assumption|]. right. split; [lia|exact B1].
      + apply Forall_forall. intros z Z. rewrite Forall_forall in F, B2. unfold lex. specialize (F z Z). destruct F as [F|[F _]]; [left; lia|].
        destruct (Nat.lt_ge_cases (r_id x) (r_id z)); [left; assumption|]. right. split; [lia|]. apply B2, Z.
    - constructor; [apply IH, B2|]. eapply Permutation_Forall; [apply insert_by_perm|]. constructor; [left; exact E|exact F].
  Qed.
  Lemma sort_lex (l : list row) : StronglySorted (fun a b => budget_le A a b = true) l -> StronglySorted lex (sort_by id_le l).
  Proof.
    induction 1 as [|x l S IH F]; cbn; [constructor|]. apply insert_lex; [exact IH|]. eapply Permutation_Forall; [apply sort_by_perm|exact F].
  Qed.
  Lemma budget_refl (x : row) : budget_le A x x = true.
  Proof. destruct (budget_le A x x) eqn:E; [reflexivity|]. apply le_total in E as E'. congruence. Qed.
  Lemma last_highest (l : list row) r r' : StronglySorted lex l -> In r (last_of_each l) -> In r' l -> r_id r' = r_id r -> budget_le A r' r = true.
  Proof.
    induction 1 as [|x l S IH F]; cbn; [intros []|]. destruct l as [|y l].
    { intros [<-|[]] [<-|[]] _. apply budget_refl. }
    destruct (Nat.eqb_spec (r_id x) (r_id y)) as [E|E].
    - intros I [<-|I'] EQ; [|apply IH; assumption]. apply last_of_each_in in I. rewrite Forall_forall in F. specialize (F r I).
      destruct F as [F|[_ F]]; [lia|exact F].
    - assert (X : forall z, In z (y :: l) -> r_id x < r_id z).
      { pose proof (Forall_inv F) as L. assert (Y : r_id x < r_id y) by (destruct L as [L|[L _]]; [exact L|contradiction]).
        intros z [<-|Z]; [exact Y|]. inversion S as [|? ? _ G]; subst. rewrite Forall_forall in G. specialize (G z Z).
        destruct G as [G|[G _]]; lia. }
      intros [<-|I] [<-|I'] EQ.
      + apply budget_refl.
      + specialize (X r' I'). lia.
      + apply last_of_each_in in I. specialize (X r I). lia.
      + apply IH; assumption.
  Qed.
  Lemma keep_in (l : list row) r : In r (keep_highest A l) -> In r l.
  Proof.
    unfold keep_highest. intros I. apply last_of_each_in in I. apply (Permutation_in r (Permutation_sym (sort_by_perm id_le _))) in I.
    apply (Permutation_in r (Permutation_sym (sort_by_perm (budget_le A) l))) in I. exact I.
  Qed.
  Lemma keep_high (l : list row) r r' : In r (keep_highest A l) -> In r' l -> r_id r' = r_id r -> budget_le A r' r = true.
  Proof.
    intros I I' E. eapply last_highest; [apply sort_lex, sort_budget|exact I| |exact E].
    eapply Permutation_in; [apply sort_by_perm|]. eapply Permutation_in; [apply sort_by_perm|exact I'].
  Qed.
End Sort.

(** ** The choice *)
Section Ask.
  Context {T C V : Type} (A : arith T) (enc : C -> V) (dec : V -> C) (o : ifbo T).

  Lemma best_of_in (acq : list (row T V) -> list T) argmax l c : best_of acq argmax l = Ok c -> In (snd c) l.
  Proof.
    unfold best_of. destruct (nth_error (acq l) (argmax (acq l))); [|discriminate]. destruct (nth_error l (argmax (acq l))) eqn:E; [|discriminate].
    intros [= <-]. eapply nth_error_In; exact E.
  Qed.
  Definition from_rows (P : row T V -> Prop) (b : option (T * row T V)) : Prop := match b with None => True | Some c => P (snd c) end.
  Lemma better_from (P : row T V -> Prop) b c : from_rows P b -> P (snd c) -> from_rows P (better A b c).
  Proof.
    intros B H. unfold better. destruct b as [b|].
    - destruct (altb A (fst b) (fst c)); assumption.
    - destruct (is_nan A (fst c)); [exact I|exact H].
  Qed.
  Lemma new_rows_in (r : row T V) (l : list V) : In r (new_rows A o l) -> r_id r = 0 /\ r_budget r = d_lower A (ib_budget o).
  Proof. unfold new_rows. intros I. apply in_map_iff in I. destruct I as (v & <- & _). split; reflexivity. Qed.
  Lemma samplers_from (P : row T V -> Prop) acq argmax samplers : (forall l r, In r (new_rows A o l) -> P r) ->
    forall b c, from_rows P b -> fold_samplers A o acq argmax samplers b = Ok c -> from_rows P c.
  Proof.
    intros N. unfold fold_samplers. induction samplers as [|s l IH]; cbn [fold_left]; intros b c B.
    { intros [= <-]. exact B. }
    destruct (try_sampler A o acq argmax b s) as [b'|e] eqn:E; cbn [bind].
    - change (bind (Ok b) (fun b : option (T * row T V) => try_sampler A o acq argmax b s)) with (try_sampler A o acq argmax b s).
      rewrite E. apply IH. unfold try_sampler in E. apply bind_ok in E. destruct E as (x & X & E). apply bind_ok in E. destruct E as (y & Y & [= <-]).
      apply better_from; [apply better_from; [exact B|]|]; eapply N; eapply best_of_in; eassumption.
    - change (bind (Ok b) (fun b : option (T * row T V) => try_sampler A o acq argmax b s)) with (try_sampler A o acq argmax b s).
      rewrite E. intros F. exfalso. revert F. clear. induction l as [|s l IH]; cbn [fold_left bind]; [discriminate|exact IH].
  Qed.
  Lemma acquire_from acq argmax (rows : list (row T V)) samplers (r : row T V) : acquire A o acq argmax rows samplers = Ok (Some r) ->
    (r_id r = 0 /\ r_budget r = d_lower A (ib_budget o)) \/
    (In r (keep_highest A rows) /\ altb A (r_budget r) (d_upper A (ib_budget o)) = true).
  Proof.
    set (P := fun r : row T V => (r_id r = 0 /\ r_budget r = d_lower A (ib_budget o)) \/
      (In r (keep_highest A rows) /\ altb A (r_budget r) (d_upper A (ib_budget o)) = true)). change (acquire A o acq argmax rows samplers = Ok (Some r) -> P r).
    unfold acquire. intros H. apply bind_ok in H. destruct H as (b & B & H). apply bind_ok in H. destruct H as (c & F & H).
    assert (X : from_rows P c).
    { eapply samplers_from; [|  |exact F].
      - intros l r' I. left. eapply new_rows_in; exact I.
      - destruct (filter _ (keep_highest A rows)) as [|x l] eqn:E; [injection B as <-; exact I|].
        apply bind_ok in B. destruct B as (c' & B & [= <-]). apply best_of_in in B. rewrite <- E in B. apply filter_In in B. right. exact B. }
    destruct c as [c|]; [|discriminate]. injection H as <-. exact X.
  Qed.

  Lemma mapM_fun {B D} (f : B -> res D) (g : B -> D) l : (forall x, In x l -> f x = Ok (g x)) -> mapM f l = Ok (map g l).
  Proof.
    induction l as [|x l IH]; intros H; cbn [mapM map]; [reflexivity|]. rewrite (H x (or_introl eq_refl)). cbn [bind].
    rewrite IH by (intros; apply H; right; assumption). reflexivity.
  Qed.
  Lemma combine_maps {B D E} (f : B -> D) (g : B -> E) l : combine (map f l) (map g l) = map (fun x => (f x, g x)) l.
  Proof. induction l as [|x l IH]; cbn; [reflexivity|]. rewrite IH. reflexivity. Qed.

  (** What an answer is, if the identifiers are ifBO's. *)
  Definition row_of (t : trial T C) (c : nat) : row T V := mkRow (c + 1) (cast A (ib_budget o) (ib_fid o) (t_fid t)) (enc (t_config t)).
  Definition known_loss (t : trial T C) : Prop := is_nan A (asub A (aZ A 1) (loss_of A t)) = false.
  Lemma ask_cases design acq argmax samplers ts cs r : (forall t, In t ts -> exists k, t_id t = ifbo_id (cs t) k) ->
    ifbo_ask A enc dec o design acq argmax samplers ts = Ok r ->
    (exists c new, sc_id r = ifbo_id new 0 /\ (forall t, In t ts -> cs t < new) /\ sc_previous r = None /\
       (sc_config r = (c, ib_min o) \/ (sc_config r = (c, cast A (ib_fid o) (ib_budget o) (d_lower A (ib_budget o))) /\ (1 < ib_bins o)%Z))) \/
    (exists t k, In t ts /\ known_loss t /\ (1 < ib_bins o)%Z /\
       altb A (cast A (ib_budget o) (ib_fid o) (t_fid t)) (d_upper A (ib_budget o)) = true /\
       (forall t', In t' ts -> known_loss t' -> cs t' = cs t -> In (row_of t (cs t)) (keep_highest A (map (fun t => row_of t (cs t)) (filter (fun t => negb (is_nan A (asub A (aZ A 1) (loss_of A t)))) ts)))) /\
       as_int A (cast A (ib_ix o) (ib_fid o) (cast A (ib_fid o) (ib_budget o) (cast A (ib_budget o) (ib_fid o) (t_fid t)))) = Ok k /\
       sc_id r = ifbo_id (cs t) (k + 1) /\ sc_previous r = Some (ifbo_id (cs t) k) /\
       sc_config r = (dec (enc (t_config t)), cast A (ib_fid o) (ib_ix o) (aZ A (k + 1)))).
  Proof.
    intros ID. unfold ifbo_ask.
    assert (CID : forall t, In t ts -> cid_of (t_id t) = Ok (cs t)) by (intros t I; destruct (ID t I) as (k & ->); apply cid_of_id).
    rewrite (mapM_fun _ cs ts CID). cbn [bind].
    set (new := match map cs ts with [] => 0 | _ => list_max (map cs ts) + 1 end).
    assert (NW : forall t, In t ts -> cs t < new).
    { intros t I. unfold new. destruct (map cs ts) as [|x l] eqn:E; [destruct ts; [destruct I|discriminate]|]. rewrite <- E.
      pose proof (proj1 (list_max_le (map cs ts) (list_max (map cs ts))) (le_n _)) as L. rewrite Forall_forall in L.
      specialize (L (cs t) (in_map cs ts t I)). lia. }
    destruct (nth_error design new) as [c|].
    { intros [= <-]. left. exists c, new. cbn [sc_id sc_previous sc_config]. auto. }
    unfold encode_ftpfn. rewrite (mapM_fun _ (fun t => row_of t (cs t)) ts) by (intros t I; rewrite (CID t I); reflexivity). cbn [bind].
    intros H. apply bind_ok in H. destruct H as ((rows, ys) & EN & H). cbn [fst snd] in H.
    assert (RY : rows = map (fun t => row_of t (cs t)) ts /\ ys = map (fun t => asub A (aZ A 1) (loss_of A t)) ts).
    { destruct (map (loss_of A) ts) as [|y l] eqn:L; [discriminate|]. destruct (_ || _); [discriminate|]. injection EN as <- <-.
      split; [reflexivity|]. change (asub A (aZ A 1) y :: map (fun y => asub A (aZ A 1) y) l) with (map (fun y => asub A (aZ A 1) y) (y :: l)).
      rewrite <- L, map_map. reflexivity. }
    destruct RY as [-> ->]. rewrite combine_maps in H.
    set (np := map fst (filter _ _)) in H.
    assert (NP : np = map (fun t => row_of t (cs t)) (filter (fun t => negb (is_nan A (asub A (aZ A 1) (loss_of A t)))) ts)).
    { unfold np. clear. induction ts as [|t ts IH]; cbn; [reflexivity|]. destruct (is_nan A _); cbn; [exact IH|]. rewrite IH. reflexivity. }
    destruct (Z.leb (ib_bins o - 1) 0) eqn:NB; [discriminate|]. apply Z.leb_gt in NB.
    apply bind_ok in H. destruct H as (best & AQ & H). destruct best as [b|]; [|discriminate].
    apply acquire_from in AQ. destruct AQ as [(B1 & B2)|(B1 & B2)].
    - rewrite B1, B2 in H. injection H as <-. left. eexists _, new. cbn [sc_id sc_previous sc_config].
      split; [reflexivity|]. split; [exact NW|]. split; [reflexivity|]. right. split; [reflexivity|]. lia.
    - assert (IN : In b np) by (apply (keep_in A); exact B1). pose proof IN as IN'. rewrite NP in IN'. apply in_map_iff in IN'.
      destruct IN' as (t & <- & IT). apply filter_In in IT. destruct IT as [IT KL]. apply negb_true_iff in KL.
      cbn [row_of r_id r_budget] in *. replace (cs t + 1) with (S (cs t)) in H by lia. cbn [r_id] in H.
      right. apply bind_ok in H. destruct H as (k & K & [= <-]). exists t, k. cbn [sc_id sc_previous sc_config].
      split; [exact IT|]. split; [exact KL|]. split; [lia|]. split; [exact B2|]. split; [intros _ _ _ _; rewrite <- NP; exact B1|].
      split; [exact K|]. auto.
  Qed.
End Ask.
