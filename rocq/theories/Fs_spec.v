(** Specification for stored trials. *)
From Verif Require Import Py Trial_model Fs_model.

(** Data that YAML represents as it is: no tuples, no foreign objects. *)
Inductive plain : pyval -> Prop :=
| pl_none : plain VNone
| pl_bool b : plain (VBool b)
| pl_int z : plain (VInt z)
| pl_float f : plain (VFloat f)
| pl_str s : plain (VStr s)
| pl_list l : Forall plain l -> plain (VList l)
| pl_dict d : Forall (fun kv => plain (snd kv)) d -> plain (VDict d).

Definition plain_report (r : report) : Prop := plain (VDict (r_extra r)).

Definition plain_trial (t : trial) : Prop :=
  plain (VDict (t_config t)) /\ (forall r, t_report t = Some r -> plain_report r).

(** The directory [x] holds exactly the trial [t] under version [n]. *)
Record holds (x : tdir) (t : trial) (n : nat) : Prop := {
  ho_version : f_version x = Full n;
  ho_config : f_config x = Full (t_config t);
  ho_meta : f_meta x = Full (t_meta t);
  ho_state : f_state x = Full (t_state t);
  ho_report : f_report x = match t_report t with Some r => Full r | None => Absent end }.
