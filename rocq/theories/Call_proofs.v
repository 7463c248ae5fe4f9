(** Proofs about calls of the user's function. *)
From Coq Require Import String.
From Verif Require Import Py Py_proofs Trial_model Eval_model Enc_model Call_model Call_spec.
Local Open Scope string_scope.
Local Open Scope list_scope.

Section Proofs.
  Context {V : Type}.
  Variables (path : string -> V) (none : V).
  Implicit Type sig : list (param V).

  Lemma look_in (d : list (string * V)) k v : lookup k d = Some v -> In (k, v) d.
  Proof. induction d as [|[k' v'] d IH]; cbn; [discriminate|]. destruct (String.eqb_spec k k') as [->|]; [intros E; injection E as ->; auto|auto]. Qed.
  Lemma in_look (d : list (string * V)) k v : NoDup (map fst d) -> In (k, v) d -> lookup k d = Some v.
  Proof.
    induction d as [|[k' v'] d IH]; cbn; intros N I; [destruct I|]. inversion N as [|? ? N1 N2]; subst. destruct I as [E|I].
    - injection E as -> ->. rewrite String.eqb_refl. reflexivity.
    - destruct (String.eqb_spec k k') as [->|]; [|auto]. destruct N1. apply (in_map fst) in I. exact I.
  Qed.
  Lemma look_none (d : list (string * V)) k : lookup k d = None <-> forall v, ~ In (k, v) d.
  Proof.
    split.
    - induction d as [|[k' v'] d IH]; cbn; [auto|]. destruct (String.eqb_spec k k') as [->|N]; [discriminate|]. intros L v [E|I]; [injection E; congruence|]. exact (IH L v I).
    - intros H. destruct (lookup k d) as [v|] eqn:E; [|reflexivity]. destruct (H v (look_in _ _ _ E)).
  Qed.
  Lemma has_key_iff (d : list (string * V)) k : has_key k d = true <-> exists v, In (k, v) d.
  Proof.
    unfold has_key. destruct (lookup k d) as [v|] eqn:E; split; try congruence.
    - intros _. exists v. apply look_in, E.
    - intros (v & I). destruct (proj1 (look_none d k) E v I).
  Qed.
  Lemma by_keyword_iff (p : param V) : by_keyword p = true <-> p_kind p = PositionalOrKeyword \/ p_kind p = KeywordOnly.
  Proof. unfold by_keyword. destruct (p_kind p); split; intros H; auto; try discriminate; destruct H; discriminate. Qed.
  Lemma takes_iff sig k : takes sig k = true <-> keyword sig k.
  Proof.
    unfold takes, keyword. rewrite existsb_exists. split; intros (p & P & H); exists p; (split; [exact P|]).
    - apply andb_true_iff in H. destruct H as [B E]. apply String.eqb_eq in E. split; [exact E|]. apply by_keyword_iff, B.
    - destruct H as [E B]. apply andb_true_iff. split; [apply by_keyword_iff, B|apply String.eqb_eq, E].
  Qed.
  Lemma var_iff sig : existsb is_var_keyword sig = true <-> open_ended sig.
  Proof.
    unfold open_ended. rewrite existsb_exists. split; intros (p & P & H); exists p; (split; [exact P|]); unfold is_var_keyword in *; destruct (p_kind p); congruence.
  Qed.
  Lemma named_iff (p : param V) : named p = true <-> plain_param p.
  Proof. unfold named, plain_param. destruct (p_kind p); split; intros H; try discriminate; try (split; discriminate); try reflexivity; destruct H; congruence. Qed.
  Lemma own_name sig p q : signature sig -> In p sig -> In q sig -> p_name p = p_name q -> p = q.
  Proof.
    unfold signature. induction sig as [|x sig IH]; cbn; intros N P Q E; [destruct P|]. inversion N as [|? ? N1 N2]; subst.
    destruct P as [->|P], Q as [->|Q]; auto.
    - destruct N1. rewrite E. apply in_map, Q.
    - destruct N1. rewrite <- E. apply in_map, P.
  Qed.
  Lemma keyword_own sig p : signature sig -> In p sig -> (keyword sig (p_name p) <-> by_keyword p = true).
  Proof.
    intros S P. rewrite by_keyword_iff. split.
    - intros (q & Q & E & B). rewrite <- (own_name sig q p S Q P E). exact B.
    - intros B. exists p. auto.
  Qed.
  Lemma injected sig l pr k v : In (k, v) (injectable path none sig l pr) <-> has_param sig k /\ directory path none l pr k v.
  Proof.
    unfold injectable, directory, has_param. rewrite filter_In, existsb_exists. cbn [fst In]. split.
    - intros [I (p & P & E)]. apply String.eqb_eq in E. split; [eauto|]. destruct I as [I|[I|[]]]; injection I as <- <-; [left; auto|right]. split; [reflexivity|]. destruct pr; eauto.
    - intros [(p & P & E) D]. split; [|exists p; split; [exact P|apply String.eqb_eq, E]].
      destruct D as [[-> ->]|[-> [(l' & -> & ->)|[-> ->]]]]; auto.
  Qed.
  Lemma injected_nodup sig l pr : NoDup (map fst (injectable path none sig l pr)).
  Proof.
    unfold injectable. cbn [filter fst]. destruct (existsb _ sig), (existsb _ sig); cbn [map fst]; repeat constructor; try (intros []; fail); intros [E|[]]; discriminate E.
  Qed.

  Lemma mapM_fill sig d : forall vs, mapM (fill_in d) (filter named sig) = Ok vs ->
    map fst vs = map p_name (filter named sig) /\ forall p, In p (filter named sig) -> exists v, In (p_name p, v) vs /\ fill_in d p = Ok (p_name p, v).
  Proof.
    induction (filter named sig) as [|p ps IH]; cbn [mapM]; intros vs E.
    - injection E as <-. split; [reflexivity|]. intros p [].
    - assert (F : forall k v, fill_in d p = Ok (k, v) -> k = p_name p) by (intros k v; unfold fill_in; destruct (if by_keyword p then lookup (p_name p) d else None); [|destruct (p_default p)]; congruence).
      destruct (fill_in d p) as [[k v]|e] eqn:FP; [|discriminate]. cbn [bind] in E. destruct (mapM (fill_in d) ps) as [vs'|e] eqn:M; [|discriminate]. cbn [bind] in E. injection E as <-.
      specialize (F k v eq_refl). subst k. destruct (IH vs' eq_refl) as [I1 I2]. split; [cbn; rewrite I1; reflexivity|]. intros q [<-|Q]; [exists v; split; [left; reflexivity|exact FP]|].
      destruct (I2 q Q) as (w & W & FW). exists w. split; [right; exact W|exact FW].
  Qed.
  Lemma mapM_all {A B} (f : A -> res B) l : (forall x, In x l -> exists y, f x = Ok y) -> exists ys, mapM f l = Ok ys.
  Proof.
    induction l as [|x l IH]; intros H; [exists []; reflexivity|]. cbn. destruct (H x (or_introl eq_refl)) as (y & ->). cbn. destruct IH as (ys & ->); [intros; apply H; right; assumption|]. cbn. eauto.
  Qed.

  Section One.
    Variables (sig : list (param V)) (l : string) (pr : option string) (config : list (string * V)).
    Hypotheses (S : signature sig) (N : NoDup (map fst config)).
    Notation a := (injectable path none sig l pr).
    Notation off := (offered path none sig l pr config).
    Lemma off_iff k v : In (k, v) (a ++ config) <-> off k v.
    Proof. unfold offered. rewrite in_app_iff, injected. tauto. Qed.
    Lemma clash_iff : existsb (fun kv => has_key (fst kv) a) config = false <-> forall k v v', In (k, v) config -> has_param sig k -> ~ directory path none l pr k v'.
    Proof.
      rewrite <- not_true_iff_false, existsb_exists. split.
      - intros H k v v' I P D. apply H. exists (k, v). split; [exact I|]. apply has_key_iff. exists v'. apply injected. auto.
      - intros H ([k v] & I & K). apply has_key_iff in K. destruct K as (v' & K). apply injected in K. destruct K as [P D]. exact (H k v v' I P D).
    Qed.
    Lemma all_nodup : (forall k v v', In (k, v) config -> has_param sig k -> ~ directory path none l pr k v') -> NoDup (map fst (a ++ config)).
    Proof.
      intros C. rewrite map_app. assert (A := injected_nodup sig l pr).
      assert (D : forall k, In k (map fst a) -> ~ In k (map fst config)).
      { intros k I J. apply in_map_iff in I, J. destruct I as ([k1 v1] & <- & I), J as ([k2 v2] & E & J). cbn in E. subst k2. apply injected in I. exact (C _ _ _ J (proj1 I) (proj2 I)). }
      revert A D. generalize (map fst a) as x. induction x as [|k x IH]; intros A D; [exact N|]. inversion A as [|? ? A1 A2]; subst. cbn. constructor.
      - rewrite in_app_iff. intros [X|X]; [contradiction|exact (D k (or_introl eq_refl) X)].
      - apply IH; [exact A2|]. intros; apply D; right; assumption.
    Qed.
    Lemma fill_value p : In p sig -> NoDup (map fst (a ++ config)) ->
      match fill_in (a ++ config) p with
      | Ok (k, v) => (keyword sig (p_name p) /\ off (p_name p) v) \/ ((~ keyword sig (p_name p) \/ forall w, ~ off (p_name p) w) /\ p_default p = Some v)
      | Err _ => p_default p = None /\ (~ keyword sig (p_name p) \/ forall w, ~ off (p_name p) w)
      end.
    Proof.
      intros P ND. unfold fill_in. destruct (by_keyword p) eqn:B.
      - assert (K : keyword sig (p_name p)) by (apply keyword_own; assumption).
        destruct (lookup (p_name p) (a ++ config)) as [v|] eqn:L.
        + left. split; [exact K|]. apply off_iff, look_in, L.
        + assert (Q : forall w, ~ off (p_name p) w) by (intros w W; apply off_iff in W; exact (proj1 (look_none _ _) L w W)).
          destruct (p_default p); [right; auto|auto].
      - assert (K : ~ keyword sig (p_name p)) by (rewrite keyword_own by assumption; congruence). destruct (p_default p); [right; auto|auto].
    Qed.
    Lemma called_ok : (exists f, call_twice sig a config = Ok f) <-> callable path none sig l pr config.
    Proof.
      unfold call_twice, callable. split.
      - intros (f & E). destruct (existsb _ config) eqn:C; [discriminate|]. assert (C' := proj1 clash_iff C). split; [exact C'|].
        assert (ND := all_nodup C'). unfold bind_keywords in E. destruct (negb _ && negb _) eqn:X; [discriminate|].
        destruct (mapM (fill_in (a ++ config)) (filter named sig)) as [vs|e] eqn:M; [|discriminate]. split.
        + intros k v O. apply off_iff in O. destruct (takes sig k) eqn:T; [left; apply takes_iff, T|right].
          apply andb_false_iff in X. destruct X as [X|X]; [|apply negb_false_iff in X; apply var_iff, X].
          assert (I : In (k, v) (filter (fun kv => negb (takes sig (fst kv))) (a ++ config))) by (apply filter_In; split; [exact O|cbn; rewrite T; reflexivity]).
          destruct (filter _ (a ++ config)); [destruct I|discriminate X].
        + intros p P PP DN. destruct (mapM_fill sig (a ++ config) vs M) as [_ F]. destruct (F p) as (v & _ & FV); [apply filter_In; split; [exact P|apply named_iff, PP]|].
          assert (Q := fill_value p P ND). rewrite FV in Q. destruct Q as [[K O]|[_ D]]; [eauto|congruence].
      - intros (C & O & D). rewrite (proj2 clash_iff C). assert (ND := all_nodup C). unfold bind_keywords.
        destruct (negb _ && negb _) eqn:X.
        + exfalso. apply andb_true_iff in X. destruct X as [X1 X2]. apply negb_true_iff in X2. destruct (filter _ (a ++ config)) as [|[k v] r] eqn:FE; [discriminate|].
          assert (I : In (k, v) (filter (fun kv => negb (takes sig (fst kv))) (a ++ config))) by (rewrite FE; left; reflexivity).
          apply filter_In in I. destruct I as [I T]. apply off_iff in I. destruct (O k v I) as [K|K]; [apply takes_iff in K; cbn in T; rewrite K in T; discriminate|]. apply var_iff in K. congruence.
        + destruct (mapM_all (fill_in (a ++ config)) (filter named sig)) as (vs & M); [|rewrite M; cbn [bind]; eauto].
          intros p P. apply filter_In in P. destruct P as [P PN]. apply named_iff in PN. assert (Q := fill_value p P ND).
          destruct (fill_in (a ++ config) p) as [y|e]; [eauto|]. destruct Q as [DN Q]. destruct (D p P PN DN) as (K & v & W). destruct Q as [Q|Q]; [contradiction|destruct (Q v W)].
    Qed.
    Lemma called_given f : call_twice sig a config = Ok f -> given path none sig l pr config f.
    Proof.
      unfold call_twice. intros E. destruct (existsb _ config) eqn:C; [discriminate|]. assert (C' := proj1 clash_iff C). assert (ND := all_nodup C').
      unfold bind_keywords in E. destruct (negb _ && negb _); [discriminate|]. destruct (mapM (fill_in (a ++ config)) (filter named sig)) as [vs|e] eqn:M; [|discriminate].
      cbn [bind] in E. injection E as <-. destruct (mapM_fill sig (a ++ config) vs M) as [F1 F2]. split; [|split]; cbn [values others].
      - intros p P PP. destruct (F2 p) as (v & IV & FV); [apply filter_In; split; [exact P|apply named_iff, PP]|]. exists v. split.
        + apply in_look; [|exact IV]. rewrite F1. clear - S. unfold signature in S. induction sig as [|x s IH]; cbn; [constructor|]. inversion S as [|? ? S1 S2]; subst.
          destruct (named x); cbn; [constructor|]; [|apply IH, S2|apply IH, S2]. rewrite in_map_iff. intros (y & E & Y). apply filter_In in Y. apply S1. rewrite <- E. apply in_map, Y.
        + assert (Q := fill_value p P ND). rewrite FV in Q. exact Q.
      - intros k K. rewrite F1 in K. apply in_map_iff in K. destruct K as (p & E & P). apply filter_In in P. exists p. split; [apply P|]. split; [apply named_iff, P|exact E].
      - intros k v. rewrite filter_In, off_iff. cbn [fst]. rewrite <- takes_iff. destruct (takes sig k); cbn; intuition congruence.
    Qed.
  End One.

  Lemma outcome_called type_error sig l pr config : signature sig -> NoDup (map fst config) -> callable path none sig l pr config ->
    exists f, given path none sig l pr config f /\ forall body, outcome path none type_error sig body l pr config = body f.
  Proof.
    intros S N C. destruct (proj2 (called_ok sig l pr config S N) C) as (f & E). exists f. split; [apply called_given; assumption|]. intros body. unfold outcome. rewrite E. reflexivity.
  Qed.
  Lemma outcome_not type_error sig l pr config : signature sig -> NoDup (map fst config) -> ~ callable path none sig l pr config ->
    forall body, outcome path none type_error sig body l pr config = FnRaises type_error.
  Proof.
    intros S N C body. unfold outcome. destruct (call_twice sig _ config) as [f|e] eqn:E; [|reflexivity]. destruct C. apply (called_ok sig l pr config S N). eauto.
  Qed.
  Lemma directory_name sig l pr config k : signature sig -> NoDup (map fst config) -> k = "pipeline_directory" \/ k = "previous_pipeline_directory" ->
    has_param sig k -> In k (map fst config) -> ~ callable path none sig l pr config.
  Proof.
    intros S N K P I (C & _). apply in_map_iff in I. destruct I as ([k' v] & E & I). cbn in E. subst k'.
    destruct K as [->| ->].
    - apply (C _ v (path l) I P). left. auto.
    - destruct pr as [l'|]; [apply (C _ v (path l') I P)|apply (C _ v none I P)]; right; (split; [reflexivity|]); eauto.
  Qed.
  Lemma crash_report (pf : pyval -> res fl) t te drv tb d e : exists t' r, Eval_model.evaluate_trial pf t (FnRaises te) tb drv d e = Ok (t', r) /\ r_reported_as r = RCrashed /\ r_err r = Some te.
  Proof. eexists _, _. split; [reflexivity|split; reflexivity]. Qed.
End Proofs.

Section Directories.
  Context {V : Type}.
  Variables (path : string -> V) (none : V).
  Lemma directory_given sig l pr config f k v : signature sig -> callable path none sig l pr config -> given path none sig l pr config f ->
    keyword sig k -> directory path none l pr k v -> lookup k (values f) = Some v.
  Proof.
    intros S (C & _) (G & _) (p & P & E & B) D. subst k. destruct (G p P) as (w & L & H).
    { split; intros X; rewrite X in B; destruct B; discriminate. }
    rewrite L. f_equal.
    assert (HP : has_param sig (p_name p)) by (exists p; auto).
    destruct H as [[_ [I|[_ D']]]|[[K|K] _]].
    - destruct (C _ _ _ I HP D).
    - destruct D as [[D1 ->]|[D1 D2]], D' as [[D3 ->]|[D3 D4]]; try reflexivity; try congruence.
      destruct D2 as [(x & -> & ->)|[-> ->]], D4 as [(y & Y & ->)|[Y ->]]; congruence.
    - destruct K. exists p. auto.
    - destruct (K v). right. split; [exact HP|exact D].
  Qed.
End Directories.
