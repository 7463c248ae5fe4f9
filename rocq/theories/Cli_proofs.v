(** The commands of the command line. *)
From Coq Require Import Ascii String Sorting Permutation.
From Verif Require Import Py Py_proofs Trial_model Limit_spec Status_model Status_spec Status_proofs Set_model Set_flat_proofs
  Yam_model Yam_spec Yam_text_proofs Cli_model Cli_spec Cli_text_proofs.
Local Open Scope string_scope.
Local Open Scope list_scope.
Local Notation length := List.length.

(** ** neps run *)
Lemma lookup_app {A} k (d e : list (string * A)) : lookup k (d ++ e) = match lookup k d with Some v => Some v | None => lookup k e end.
Proof. induction d as [|(k', v) d IH]; [reflexivity|]. cbn. destruct (String.eqb k k'); [reflexivity|exact IH]. Qed.
Lemma lookup_mapv {A B} (f : A -> B) k d : lookup k (map (fun kv => (fst kv, f (snd kv))) d) = option_map f (lookup k d).
Proof. induction d as [|(k', v) d IH]; [reflexivity|]. cbn. destruct (String.eqb k k'); [reflexivity|exact IH]. Qed.
Lemma has_key_lookup {A} k (d : list (string * A)) : has_key k d = match lookup k d with Some _ => true | None => false end.
Proof. reflexivity. Qed.
Lemma set_key_fresh {A} k (v : A) d : ~ In k (map fst d) -> set_key k v d = d ++ [(k, v)].
Proof.
  induction d as [|(k', w) d IH]; intros N; [reflexivity|]. cbn. destruct (String.eqb_spec k k') as [->|NE].
  - exfalso. apply N. left. reflexivity.
  - f_equal. apply IH. intros I. apply N. right. exact I.
Qed.
Lemma update_fresh {A} (d e : list (string * A)) : NoDup (map fst e) -> (forall k, In k (map fst e) -> ~ In k (map fst d)) -> update d e = d ++ e.
Proof.
  revert d. induction e as [|(k, v) e IH]; intros d ND F; [symmetry; apply app_nil_r|]. unfold update in *. cbn [fold_left fst snd]. cbn in ND, F.
  inversion ND; subst. rewrite set_key_fresh by (apply F; left; reflexivity). rewrite IH; [rewrite <- app_assoc; reflexivity|assumption|].
  intros k' I'. rewrite map_app, in_app_iff. intros [X|[X|[]]]; [exact (F k' (or_intror I') X)|]. cbn in X. subst k'. contradiction.
Qed.
Lemma lookup_given {A} k k' (f : A -> pyval) o : lookup k (given k' f o) = if String.eqb k k' then option_map f o else None.
Proof. destruct o; cbn; destruct (String.eqb k k'); reflexivity. Qed.
Lemma lookup_switched k k' b : lookup k (switched k' b) = if String.eqb k k' then (if b then Some (VBool true) else None) else None.
Proof. destruct b; cbn; destruct (String.eqb k k'); reflexivity. Qed.
Lemma filter_app_none {A} (f : A -> bool) l r : (forall x, In x l -> f x = false) -> filter f (l ++ r) = filter f r.
Proof. intros H. induction l as [|x l IH]; [reflexivity|]. cbn. rewrite H by (left; reflexivity). apply IH. intros y I. apply H. right. exact I. Qed.
Lemma filter_all {A} (f : A -> bool) l : (forall x, In x l -> f x = true) -> filter f l = l.
Proof. intros H. induction l as [|x l IH]; [reflexivity|]. cbn. rewrite H by (left; reflexivity). f_equal. apply IH. intros y I. apply H. right. exact I. Qed.
Lemma not_in_params (kwargs : dict) : (forall k, In k (map fst kwargs) -> ~ In k (map fst Set_model.parameters)) ->
  forall k, In k (map fst Set_model.parameters) -> lookup k kwargs = None.
Proof.
  intros H k I. destruct (lookup k kwargs) as [v|] eqn:L; [|reflexivity]. exfalso. apply lookup_In in L. apply (H k); [|exact I]. apply in_map_iff. exists (k, v). auto.
Qed.
Lemma has_key_iff {A} k (d : list (string * A)) : has_key k d = true <-> In k (map fst d).
Proof.
  unfold has_key. destruct (lookup k d) as [v|] eqn:L.
  - split; [|reflexivity]. intros _. apply lookup_In in L. apply in_map_iff. exists (k, v). auto.
  - split; [discriminate|]. intros I. apply in_map_iff in I. destruct I as ((k', v) & <- & I). exfalso. rewrite lookup_None in L. apply L. apply in_map_iff. exists (k', v). auto.
Qed.
Lemma remove_mapv {A B} (f : A -> B) k d : remove_key k (map (fun kv => (fst kv, f (snd kv))) d) = map (fun kv => (fst kv, f (snd kv))) (remove_key k d).
Proof. induction d as [|(k', v) d IH]; [reflexivity|]. cbn. destruct (String.eqb k k'); cbn; rewrite IH; reflexivity. Qed.

Definition base_opts (a : run_opts) (p : arg) : list (string * arg) :=
    [("run_args", opt VStr VNone (o_run_args a)); ("run_pipeline", p);
     ("pipeline_space", opt VStr VNone (o_pipeline_space a));
     ("root_directory", opt VStr VNone (o_root_directory a));
     ("overwrite_working_directory", flag false (o_overwrite a) true);
     ("post_run_summary", opt VBool (VBool true) (o_summary a));
     ("development_stage_id", opt VStr VNone (o_stage a)); ("task_id", opt VStr VNone (o_task a));
     ("max_evaluations_total", opt VInt VNone (o_total a));
     ("max_evaluations_per_run", opt VInt VNone (o_per_run a));
     ("continue_until_max_evaluation_completed", flag false (o_continue a) true);
     ("max_cost_total", opt VFloat VNone (o_cost a)); ("ignore_errors", flag false (o_ignore a) true);
     ("loss_value_on_error", opt VFloat VNone (o_loss_err a));
     ("cost_value_on_error", opt VFloat VNone (o_cost_err a));
     ("searcher", opt VStr (VStr "default") (o_searcher a))].
Definition arg_of (fn : option pyval) : arg := match fn with Some f => Given f | None => Dflt VNone end.
Definition table := list (string * (option pyval * pyval)).
Definition on (b : bool) : option pyval := if b then Some (VBool true) else None.
Definition the_table (a : run_opts) (fn : option pyval) : table :=
    [("run_args", (option_map VStr (o_run_args a), VNone)); ("run_pipeline", (fn, VNone));
     ("pipeline_space", (option_map VStr (o_pipeline_space a), VNone));
     ("root_directory", (option_map VStr (o_root_directory a), VNone));
     ("overwrite_working_directory", (on (o_overwrite a), VBool false));
     ("post_run_summary", (option_map VBool (o_summary a), VBool true));
     ("development_stage_id", (option_map VStr (o_stage a), VNone)); ("task_id", (option_map VStr (o_task a), VNone));
     ("max_evaluations_total", (option_map VInt (o_total a), VNone));
     ("max_evaluations_per_run", (option_map VInt (o_per_run a), VNone));
     ("continue_until_max_evaluation_completed", (on (o_continue a), VBool false));
     ("max_cost_total", (option_map VFloat (o_cost a), VNone)); ("ignore_errors", (on (o_ignore a), VBool false));
     ("loss_value_on_error", (option_map VFloat (o_loss_err a), VNone));
     ("cost_value_on_error", (option_map VFloat (o_cost_err a), VNone));
     ("searcher", (option_map VStr (o_searcher a), VStr "default"))].
Definition to_arg (x : option pyval * pyval) : arg := match fst x with Some v => Given v | None => Dflt (snd x) end.
Definition to_call (x : string * (option pyval * pyval)) : dict := match fst (snd x) with Some v => [(fst x, v)] | None => [] end.
Lemma table_base a fn : base_opts a (arg_of fn) = map (fun kv => (fst kv, to_arg (snd kv))) (the_table a fn).
Proof.
  unfold base_opts, the_table, to_arg, opt, flag, on, arg_of. cbn [map fst snd].
  repeat match goal with |- (?x, _) :: _ = _ => apply f_equal2; [apply f_equal|] end; try reflexivity;
  match goal with |- match ?o with _ => _ end = _ => destruct o | |- (if ?o then _ else _) = _ => destruct o end; reflexivity.
Qed.
Lemma given_call {A} k (f : A -> pyval) o d : given k f o = to_call (k, (option_map f o, d)). Proof. destruct o; reflexivity. Qed.
Lemma switched_call k b d : switched k b = to_call (k, (on b, d)). Proof. destruct b; reflexivity. Qed.
Definition opts_of (a : run_opts) (fn : option pyval) : dict := flat_map to_call (the_table a fn).
Lemma call_app a fn kwargs : call_of a fn kwargs = opts_of a fn ++ kwargs.
Proof.
  unfold opts_of, call_of, the_table. cbn [flat_map]. rewrite (given_call "run_pipeline" (fun v => v) fn VNone).
  replace (option_map (fun v : pyval => v) fn) with fn by (destruct fn; reflexivity).
  rewrite <- !app_assoc. repeat (apply f_equal2; [first [apply given_call|apply switched_call|reflexivity]|]). reflexivity.
Qed.
Lemma call_lookup k (t : table) : NoDup (map fst t) -> lookup k (flat_map to_call t) = match lookup k t with Some (o, _) => o | None => None end.
Proof.
  induction t as [|(k', (o, d)) t IH]; intros ND; [reflexivity|]. cbn in ND. inversion ND; subst. cbn [flat_map lookup]. rewrite lookup_app. unfold to_call at 1. cbn [fst snd].
  destruct (String.eqb_spec k k') as [->|NE].
  - destruct o as [v|]; cbn; [rewrite String.eqb_refl; reflexivity|]. rewrite IH by assumption.
    destruct (lookup k' t) as [(o, d')|] eqn:L; [|reflexivity]. exfalso. apply lookup_In in L. apply H1. apply in_map_iff. exists (k', (o, d')). auto.
  - destruct o as [v|]; cbn; [destruct (String.eqb_spec k k'); [contradiction|]|]; apply IH; assumption.
Qed.
Lemma table_keys a fn : NoDup (map fst (the_table a fn)).
Proof. cbn. repeat constructor; cbn; intuition discriminate. Qed.
Lemma table_params a fn : Forall (fun kd => match lookup (fst kd) (the_table a fn) with Some (_, d) => d = snd kd | None => True end) Set_model.parameters.
Proof. repeat constructor. Qed.
Lemma table_in_params a fn : Forall (fun k => has_key k Set_model.parameters = true) (map fst (the_table a fn)).
Proof. repeat constructor. Qed.
Lemma opts_in_params a fn : forall kv, In kv (opts_of a fn) -> has_key (fst kv) Set_model.parameters = true.
Proof.
  intros (k, v) I. unfold opts_of in I. apply in_flat_map in I. destruct I as ((k', (o, d)) & I & J). unfold to_call in J. cbn [fst snd] in J.
  destruct o as [w|]; [|destruct J]. destruct J as [[= <- <-]|[]]. pose proof (table_in_params a fn) as F. rewrite Forall_forall in F. apply F. apply in_map_iff.
  exists (k', (Some w, d)). auto.
Qed.
Lemma base_lookup a fn :
  map (fun kd => (fst kd, match lookup (fst kd) (base_opts a (arg_of fn)) with Some x => x | None => Dflt (snd kd) end)) Set_model.parameters =
  map (fun kd => (fst kd, match lookup (fst kd) (opts_of a fn) with Some v => Given v | None => Dflt (snd kd) end)) Set_model.parameters.
Proof.
  apply map_ext_in. intros (k, d) I. cbn [fst snd]. f_equal. pose proof (table_params a fn) as F. rewrite Forall_forall in F. specialize (F _ I). cbn [fst snd] in F.
  rewrite table_base, lookup_mapv. unfold opts_of. rewrite call_lookup by apply table_keys.
  destruct (lookup k (the_table a fn)) as [(o, d')|]; [|reflexivity]. subst d'. destruct o; reflexivity.
Qed.

Lemma locals_same a fn kwargs : NoDup (map fst kwargs) -> (forall k, In k (map fst kwargs) -> ~ In k (map fst Set_model.parameters)) ->
  locals_of (cli_options a (arg_of fn) kwargs) = local_args (call_of a fn kwargs).
Proof.
  intros ND F. unfold cli_options. fold (base_opts a (arg_of fn)). rewrite update_fresh.
  2: { rewrite map_map. cbn [fst]. exact ND. }
  2: { rewrite map_map. cbn [fst]. intros k I J. apply (F k I). rewrite table_base, map_map in J. cbn [fst] in J.
       pose proof (table_in_params a fn) as T. rewrite Forall_forall in T. apply has_key_iff, T. exact J. }
  rewrite call_app. unfold locals_of, local_args.
  rewrite filter_app_none.
  2: { intros kv I. rewrite table_base in I. apply in_map_iff in I. destruct I as ((k, x) & <- & I). cbn [fst]. apply negb_false_iff.
       pose proof (table_in_params a fn) as T. rewrite Forall_forall in T. apply T. apply in_map_iff. exists (k, x). auto. }
  rewrite (filter_app_none _ (opts_of a fn)) by (intros kv I; apply negb_false_iff, (opts_in_params a fn), I).
  rewrite !filter_all.
  2: { intros kv I. apply negb_true_iff. destruct (has_key (fst kv) Set_model.parameters) eqn:E; [|reflexivity]. exfalso. apply has_key_iff in E. apply (F (fst kv)); [|exact E]. apply in_map, I. }
  2: { intros kv I. apply in_map_iff in I. destruct I as (kv' & <- & I). cbn [fst]. apply negb_true_iff. destruct (has_key (fst kv') Set_model.parameters) eqn:E; [|reflexivity].
       exfalso. apply has_key_iff in E. apply (F (fst kv')); [|exact E]. apply in_map, I. }
  unfold has_key at 1 2. rewrite (lookup_mapv Given). destruct (lookup "working_directory" kwargs); [reflexivity|]. cbn [option_map].
  rewrite (lookup_mapv Given). rewrite remove_mapv, map_map. cbn [fst snd plain_of].
  replace (map (fun x : string * pyval => (fst x, snd x)) (remove_key "budget" kwargs)) with (remove_key "budget" kwargs)
    by (induction (remove_key "budget" kwargs) as [|[] l IH]; [reflexivity|cbn; rewrite <- IH; reflexivity]).
  assert (X : map (fun kd => (fst kd, match lookup (fst kd) (base_opts a (arg_of fn) ++ map (fun kv => (fst kv, Given (snd kv))) kwargs) with Some x => x | None => Dflt (snd kd) end)) Set_model.parameters
    = map (fun kd => (fst kd, match lookup (fst kd) (opts_of a fn ++ kwargs) with Some v => Given v | None => Dflt (snd kd) end)) Set_model.parameters).
  { pose proof (base_lookup a fn) as B. 
    transitivity (map (fun kd => (fst kd, match lookup (fst kd) (base_opts a (arg_of fn)) with Some x => x | None => Dflt (snd kd) end)) Set_model.parameters).
    - apply map_ext_in. intros (k, d) I. cbn [fst snd]. rewrite lookup_app, (lookup_mapv Given), (not_in_params kwargs F k) by (apply in_map_iff; exists (k, d); auto).
      destruct (lookup k (base_opts a (arg_of fn))); reflexivity.
    - rewrite B. apply map_ext_in. intros (k, d) I. cbn [fst snd]. rewrite lookup_app, (not_in_params kwargs F k) by (apply in_map_iff; exists (k, d); auto).
      destruct (lookup k (opts_of a fn)); reflexivity. }
  rewrite X. destruct (lookup "budget" kwargs); reflexivity.
Qed.
Lemma split_colon_none s : ~ In ":"%char (list_ascii_of_string s) -> split_colon s = [s].
Proof.
  induction s as [|c s IH]; intros N; [reflexivity|]. cbn. destruct (Ascii.eqb_spec c ":"); [exfalso; apply N; left; exact e|].
  rewrite IH; [reflexivity|]. intros I. apply N. right. exact I.
Qed.
Lemma split_colon_app p n : ~ In ":"%char (list_ascii_of_string p) -> split_colon (p ++ String ":" n)%string = p :: split_colon n.
Proof.
  induction p as [|c p IH]; intros N; [reflexivity|]. cbn. destruct (Ascii.eqb_spec c ":"); [exfalso; apply N; left; exact e|].
  rewrite IH; [reflexivity|]. intros I. apply N. right. exact I.
Qed.
Lemma pipeline_named E o fn : names_pipeline E o fn -> cli_pipeline E o = Ok (arg_of fn).
Proof.
  destruct o as [s|]; cbn; [|intros ->; reflexivity]. intros (p & n & f & -> & P & N & L & ->). rewrite split_colon_app, split_colon_none by assumption.
  rewrite L. reflexivity.
Qed.
Lemma cli_call E a fn kwargs : names_pipeline E (o_run_pipeline a) fn -> gives_kwargs (o_kwargs a) kwargs ->
  (forall k, In k (map fst kwargs) -> ~ In k (map fst Set_model.parameters)) ->
  run_optimization E a = run_settings E (call_of a fn kwargs).
Proof.
  intros P K F. unfold run_optimization. rewrite (pipeline_named E _ fn P). cbn [bind].
  assert (X : match o_kwargs a with Some (i :: l) => parse_kv_pairs (i :: l) | _ => Ok [] end = Ok kwargs /\ NoDup (map fst kwargs)).
  { unfold gives_kwargs in K. destruct (o_kwargs a) as [[|i l]|].
    - injection K as <-. split; [reflexivity|constructor].
    - split; [exact K|]. destruct (kv_parsed (i :: l)) as (d & E1 & ND & _); [|rewrite E1 in K; injection K as <-; exact ND].
      intros j J. destruct (split_eq j) as [(k, v)|] eqn:S; [exists k, v; apply pair_split, S|]. exfalso.
      assert (parse_kv_pairs (i :: l) = Err ValueError) as X; [|rewrite X in K; discriminate]. apply kv_err. split; [reflexivity|]. exists j. split; [exact J|].
      clear -S. induction j as [|c j IH]; [intros []|]. cbn in S. destruct (Ascii.eqb_spec c "="); [discriminate|]. destruct (split_eq j) as [[]|]; [discriminate|].
      intros [Y|Y]; [apply n; exact Y|exact (IH eq_refl Y)].
    - subst kwargs. split; [reflexivity|constructor]. }
  destruct X as (X & ND). rewrite X. cbn [bind]. rewrite (locals_same a fn kwargs ND F). reflexivity.
Qed.
