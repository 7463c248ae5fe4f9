(** Specification for opening a result directory. *)
From Verif Require Import Py Fs_model Fs_spec Init_model.

(** The directory holds the complete state [r]. *)
Record holds_state (x : fs) (r : nstate) : Prop := {
  hs_exists : d_exists x = true;
  hs_vinfo : exists n, v_info x = Full n;
  hs_info : f_info x = Full (n_info r);
  hs_vseed : exists n, v_seed x = Full n;
  hs_py : f_py x = Full (s_py (n_seed r));
  hs_seedinfo : f_seedinfo x = Full (s_info (n_seed r));
  hs_np : f_np x = Full (s_np (n_seed r));
  hs_verr : exists n, v_err x = Full n;
  hs_err : f_err x = Full (n_err r);
  hs_vopt : exists n, v_opt x = Full n;
  hs_opt : f_opt x = Full (n_opt r) }.

(** A description that YAML represents faithfully and that equals itself (no NaN). *)
Definition plain_info (i : dict) : Prop := plain (VDict i) /\ py_eqb (VDict i) (VDict i) = true.

(** A process that did not fail (so far). *)
Definition not_failed (p : pc) : Prop := forall e, p <> PFail e.
