(** A small concrete world for the examples and counterexamples about workers. *)
From Verif Require Import Py Trial_model Eval_model Init_model Runtime_model Runtime_spec.
From Coq Require Import Ascii.

Definition w_float (v : pyval) : res fl :=
  match v with VFloat f => Ok f | VInt z => Ok (fl_of_Z z) | _ => Err TypeError end.
Definition digit (i : nat) : string := String (ascii_of_nat (48 + i)) "".
Definition w_tid (i : nat) : string := ("config_" ++ digit i)%string.
Definition w_name (k : nat) : string := ("worker_" ++ digit k)%string.
(** counts up *)
Definition w_ask (r : nat) (_ : list trial) : res (dict * nat) :=
  Ok ([("x"%string, VInt (Z.of_nat r))], S r).
Definition w_drv := mkDRV (Some (FZ 9)) (Some (FZ 5)) None None LCLoss.
Definition w_free (o : on_error_t) := mkSettings o w_drv None false None None None None None None.
Definition w_total (o : on_error_t) (n : Z) :=
  mkSettings o w_drv (Some n) false None None None None None None.
Definition w_conf (_ : nat) := w_free IGNORE.

Definition gives (v : pyval) : input nat :=
  mkIn (FZ 0) (FZ 7) (FZ 2) (FnReturns v) "ValueError" "tb" [] 0.
Definition fails : input nat :=
  mkIn (FZ 0) (FZ 7) (FZ 2) (FnRaises "boom") "ValueError" "tb" [] 0.
Definition loss_and_cost (l c : Z) : pyval :=
  VDict [("loss"%string, VFloat (FZ l)); ("cost"%string, VFloat (FZ c))].

(** [n] steps of worker [k] with input [x] *)
Definition steps (n k : nat) (x : input nat) : list (event nat) := repeat (Step k x) n.

Definition pending0 : cell := mkCell 0 (trial_new "config_0" [] "" None None (FZ 1) "worker_9").

Definition w_start (cs : list cell) : sys nat :=
  start cs (Some (mkBudget (Some (FZ 100)) (FZ 0) None 0)) [] 0 (S (List.length cs)).
Definition w_run (conf : nat -> worker_settings) := run w_float w_tid w_name conf w_ask.
Definition w_evals (conf : nat -> worker_settings) := evaluated w_float w_tid w_name conf w_ask.
