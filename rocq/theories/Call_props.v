(** Property C125: the arguments of the user's function. *)
From Coq Require Import String.
From Verif Require Import Py Py_proofs Trial_model Eval_model Call_model Call_spec Call_proofs.
Local Open Scope string_scope.
Local Open Scope list_scope.

(** A function that can be called is called: every parameter gets the configuration's value or the
    directory of this name, or its default; the rest of the configuration is in [**kwargs]. *)
Theorem arguments_given : forall V (path : string -> V) none type_error sig l pr config,
  signature sig -> NoDup (map fst config) -> callable path none sig l pr config ->
  exists f, given path none sig l pr config f /\ forall body, outcome path none type_error sig body l pr config = body f.
Proof. intros V path none. exact (outcome_called path none). Qed.
Print Assumptions arguments_given.
(** [def f(x, pipeline_directory, y=7, **rest)] *)
Definition sig1 : list (param pyval) :=
  [mkParam "x" PositionalOrKeyword None; mkParam "pipeline_directory" PositionalOrKeyword None;
   mkParam "y" KeywordOnly (Some (VInt 7)); mkParam "rest" VarKeyword None].
Example arguments_given_ex : signature sig1 /\ callable VStr VNone sig1 "configs/1" None [("z", VInt 3); ("x", VInt 1)] /\
  call_twice sig1 (injectable VStr VNone sig1 "configs/1" None) [("z", VInt 3); ("x", VInt 1)] =
  Ok (mkFrame [("x", VInt 1); ("pipeline_directory", VStr "configs/1"); ("y", VInt 7)] [("z", VInt 3)]).
Proof.
  assert (S : signature sig1) by (repeat constructor; cbn; intuition discriminate).
  split; [exact S|]. split; [|reflexivity]. apply called_ok; [exact S|repeat constructor; cbn; intuition discriminate|]. eexists. reflexivity.
Qed.
(** A function that names a directory gets the one of the trial. *)
Theorem directories_given : forall V (path : string -> V) none sig l pr config f k v,
  signature sig -> callable path none sig l pr config -> given path none sig l pr config f ->
  keyword sig k -> directory path none l pr k v -> lookup k (values f) = Some v.
Proof. intros V path none. exact (directory_given path none). Qed.
Print Assumptions directories_given.
Example directories_given_ex : keyword sig1 "pipeline_directory" /\ directory VStr VNone "configs/1" None "pipeline_directory" (VStr "configs/1").
Proof. split; [eexists; split; [right; left; reflexivity|split; [reflexivity|left; reflexivity]]|left; split; reflexivity]. Qed.
(** Otherwise nothing of the function is run, and the evaluation is reported as crashed. *)
Theorem wrong_signature_crashes : forall V (path : string -> V) none type_error sig l pr config,
  signature sig -> NoDup (map fst config) -> ~ callable path none sig l pr config ->
  forall body pyfloat t tb drv d e, exists t' r,
    Eval_model.evaluate_trial pyfloat t (outcome path none type_error sig body l pr config) tb drv d e = Ok (t', r) /\ r_reported_as r = RCrashed /\ r_err r = Some type_error.
Proof.
  intros V path none te sig l pr config S N C body pyfloat t tb drv d e. rewrite (outcome_not path none te sig l pr config S N C body). exact (crash_report pyfloat t te drv tb d e).
Qed.
Print Assumptions wrong_signature_crashes.
(** [def f(x)] with a configuration of two parameters *)
Example wrong_signature_crashes_ex : ~ callable VStr VNone [mkParam "x" PositionalOrKeyword None] "configs/1" None [("z", VInt 3); ("x", VInt 1)].
Proof.
  intros (_ & C & _). destruct (C "z" (VInt 3)) as [(p & [<-|[]] & E & _)|(p & [<-|[]] & E)]; [left; left; reflexivity|discriminate|discriminate].
Qed.
(** A hyperparameter with the name of a directory that the function names as well: always crashed. *)
Theorem directory_names_clash : forall V (path : string -> V) none sig l pr config k,
  signature sig -> NoDup (map fst config) -> k = "pipeline_directory" \/ k = "previous_pipeline_directory" ->
  has_param sig k -> In k (map fst config) -> ~ callable path none sig l pr config.
Proof. intros V path none. exact (directory_name path none). Qed.
Print Assumptions directory_names_clash.
Theorem directory_names_clash_refuted : exists (sig : list (param pyval)) config, signature sig /\ map fst config = map p_name sig /\
  forall l pr body, outcome VStr VNone "TypeError" sig body l pr config = FnRaises "TypeError".
Proof.
  exists [mkParam "pipeline_directory" PositionalOrKeyword None], [("pipeline_directory", VInt 1)].
  assert (S : signature [mkParam "pipeline_directory" PositionalOrKeyword (@None pyval)]) by (repeat constructor; intros []).
  split; [exact S|]. split; [reflexivity|]. intros l pr body. apply outcome_not; [exact S|repeat constructor; intros []|].
  apply (directory_name VStr VNone _ l pr _ "pipeline_directory"); [exact S|repeat constructor; intros []|left; reflexivity|eexists; split; [left; reflexivity|reflexivity]|left; reflexivity].
Qed.
Print Assumptions directory_names_clash_refuted.
(** A function of [**kwargs] could take a directory, but is not given it. *)
Theorem kwargs_directory_refuted : exists (sig : list (param pyval)) config f, signature sig /\ open_ended sig /\ callable VStr VNone sig "configs/1" None config /\
  given VStr VNone sig "configs/1" None config f /\ (forall v, ~ In ("pipeline_directory", v) (others f)) /\ lookup "pipeline_directory" (values f) = None.
Proof.
  exists [mkParam "kwargs" VarKeyword None], [("x", VInt 1)], (mkFrame [] [("x", VInt 1)]).
  assert (S : signature [mkParam "kwargs" VarKeyword (@None pyval)]) by (repeat constructor; intros []).
  split; [exact S|]. split; [eexists; split; [left; reflexivity|reflexivity]|].
  split; [apply called_ok; [exact S|repeat constructor; intros []|]; eexists; reflexivity|].
  split; [apply called_given; [exact S|repeat constructor; intros []|]; reflexivity|].
  split; [intros v [E|[]]; discriminate E|reflexivity].
Qed.
Print Assumptions kwargs_directory_refuted.
