(** Vocabulary for calls of the user's function. *)
From Coq Require Import String.
From Verif Require Import Py Call_model.
Local Open Scope string_scope.
Local Open Scope list_scope.

Section Spec.
  Context {V : Type}.
  Variables (path : string -> V) (none : V).
  (** A signature: the names are distinct. *)
  Definition signature (sig : list (param V)) : Prop := NoDup (map p_name sig).
  Definition has_param (sig : list (param V)) (k : string) : Prop := exists p, In p sig /\ p_name p = k.
  (** can be given by keyword *)
  Definition keyword (sig : list (param V)) (k : string) : Prop :=
    exists p, In p sig /\ p_name p = k /\ (p_kind p = PositionalOrKeyword \/ p_kind p = KeywordOnly).
  Definition open_ended (sig : list (param V)) : Prop := exists p, In p sig /\ p_kind p = VarKeyword.
  Definition plain_param (p : param V) : Prop := p_kind p <> VarPositional /\ p_kind p <> VarKeyword.

  (** What is offered to a function: the configuration and the directories that its signature names *)
  Definition directory (location : string) (previous : option string) (k : string) (v : V) : Prop :=
    (k = "pipeline_directory" /\ v = path location) \/
    (k = "previous_pipeline_directory" /\ ((exists l, previous = Some l /\ v = path l) \/ (previous = None /\ v = none))).
  Definition offered (sig : list (param V)) location previous (config : list (string * V)) (k : string) (v : V) : Prop :=
    In (k, v) config \/ (has_param sig k /\ directory location previous k v).

  (** The call is possible. *)
  Definition callable sig location previous config : Prop :=
    (forall k v v', In (k, v) config -> has_param sig k -> ~ directory location previous k v') /\
    (forall k v, offered sig location previous config k v -> keyword sig k \/ open_ended sig) /\
    (forall p, In p sig -> plain_param p -> p_default p = None -> keyword sig (p_name p) /\ exists v, offered sig location previous config (p_name p) v).
End Spec.
Section Spec2.
  Context {V : Type}.
  Variables (path : string -> V) (none : V).
  (** The body gets for every parameter what is offered, or its default; everything else that is
      offered is in [**kwargs]. *)
  Definition given sig location previous config (f : frame V) : Prop :=
    (forall p, In p sig -> plain_param p -> exists v, lookup (p_name p) (values f) = Some v /\
       ((keyword sig (p_name p) /\ offered path none sig location previous config (p_name p) v) \/
        ((~ keyword sig (p_name p) \/ forall w, ~ offered path none sig location previous config (p_name p) w) /\ p_default p = Some v))) /\
    (forall k, In k (map fst (values f)) -> exists p, In p sig /\ plain_param p /\ p_name p = k) /\
    (forall k v, In (k, v) (others f) <-> offered path none sig location previous config k v /\ ~ keyword sig k).
End Spec2.
