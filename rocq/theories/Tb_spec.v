(** What the logger for TensorBoard should do. *)
From Coq Require Import Ascii String.
From Verif Require Import Py Trial_model Limit_spec Status_spec Eval_model Chain_model Chain_spec Tb_model.
Local Open Scope string_scope.
Local Open Scope list_scope.

(** ** Histories *)
Definition tno_move (es : list tevent) : Prop := forall a b, ~ In (TChain (Move a b)) es.
Definition tonly_runs (root : string) (es : list tevent) : Prop := forall r, In (TChain (NewRun r)) es -> r = root.
(** no identifier has a slash *)
Definition plain_ids (es : list tevent) : Prop :=
  forall r id prev cfg time w, In (TChain (Sample r id prev cfg time w)) es -> ~ occurs "/"%char id.
(** The events of one process ([es]), whose runs all use the directory of configurations [root], after
    those of earlier and other ones ([before]) *)
Definition one_process (root : string) (before es : list tevent) : Prop :=
  tno_move (before ++ es) /\ plain_ids (before ++ es) /\ tonly_runs root es.
Definition no_log (es : list tevent) : Prop := forall a, ~ In (TLog a) es.
Definition same_process (es : list tevent) : Prop := ~ In (TChain NewProcess) es.
Definition no_finish (es : list tevent) : Prop := forall o tb drv du te cb, ~ In (TChain (Finish o tb drv du te cb)) es.

(** Whether the logger is enabled after these events, if it was ([b]) before: the last word counts. *)
Fixpoint enabled (b : bool) (es : list tevent) : bool :=
  match es with
  | [] => b
  | TEnable :: es' => enabled true es'
  | TDisable :: es' => enabled false es'
  | TChain NewProcess :: es' => enabled true es'
  | _ :: es' => enabled b es'
  end.

(** ** What one call should write, with tags below [pre] *)
Definition extra_entries (pre : string) (epoch : Z) (kx : string * extra) : list entry :=
  match snd kx with
  | XScalar v => [Scalar (pre ++ "/" ++ fst kx)%string v epoch]
  | XImage n => if ((0 <=? epoch) && (epoch mod n =? 0))%Z then [Image (pre ++ "/" ++ fst kx)%string epoch] else []
  | XOther => []
  end.
Definition entries (pre : string) (config : dict) (a : log_args) : list entry :=
  (if la_scalar a then [Scalar (pre ++ "/Loss")%string (la_loss a) (la_epoch a)] else []) ++
  (if la_hparam a then [Hparams config (la_loss a) (la_epoch a)] else []) ++
  flat_map (extra_entries pre (la_epoch a)) (la_extra a).

(** The call asks for something to be written. *)
Definition asks (a : log_args) : Prop :=
  la_scalar a = true \/ la_hparam a = true \/ exists k x, In (k, x) (la_extra a) /\ x <> XOther.
(** "every n epochs", with n not 0 *)
Definition good_counters (a : log_args) : Prop := forall k n, In (k, XImage n) (la_extra a) -> n <> 0%Z.

(** ** Incumbents *)
(** [n] trials are reported, and [best] is the smallest loss (inf if there is none below) *)
Definition incumbent_of (ts : list trial) (best : fl) (n : nat) : Prop :=
  number_of has_report ts n /\
  (forall t l, In t ts -> succeeded t l -> l <> FNaN -> fl_le best l) /\
  (best = FPInf \/ exists t, In t ts /\ succeeded t best).

(** ** Grids *)
Definition inside (h w : nat) (p : place) : Prop := gp_bottom p <= h /\ gp_right p <= w.
Definition apart (p q : place) : Prop :=
  gp_bottom p <= gp_top q \/ gp_bottom q <= gp_top p \/ gp_right p <= gp_left q \/ gp_right q <= gp_left p.
