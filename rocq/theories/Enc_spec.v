(** What is expected of the encoding of configurations, in exact arithmetic. *)
From Verif Require Export Enc_model Dom_spec.
Open Scope Q_scope.
Local Notation length := List.length.

Notation value := (hval (option Q)).
Notation config := (list (string * hval (option Q))).

(** A hyperparameter: numbers from a range, or one of several choices. *)
Inductive sparam : Type := SNum (s : desc) | SCat (choices : list value).

Section Spec.
  Variables (lnf expf : Q -> Q) (heq : value -> value -> bool) (hashable : value -> bool).

  (** The parameter object that stands for a hyperparameter: numerical.py and categorical.py
      build the domain from the bounds, without bins. *)
  Inductive describes : parameter (T := option Q) -> sparam -> Prop :=
  | describes_float l u g d :
      make lnf expf (DFloat l u g None) false = Ok d -> describes (PFloat d) (SNum (DFloat l u g None))
  | describes_int l u g d :
      make lnf expf (DInt l u g None) false = Ok d -> describes (PInteger d) (SNum (DInt l u g None))
  | describes_cat choices : describes (PCategorical choices) (SCat choices).

  (** Hyperparameters that parameter objects can be made for.  [exact] excludes logarithmic
      ranges of integers, [log_coincidence] the logarithmic range from 1 to e. *)
  Definition sound (q : sparam) : Prop :=
    match q with
    | SNum s => good s /\ exact s /\ ~ log_coincidence lnf (DFloat 0 1 false None) s
    | SCat choices => (2 <= length choices)%nat
    end.

  (** The values it may have: for choices, those equal to one of them. *)
  Definition fits (q : sparam) (v : value) : Prop :=
    match q with
    | SNum s => exists x, v = HN (Some x) /\ legal lnf expf s x
    | SCat choices => hashable v = true /\ exists c, In c choices /\ heq c v = true
    end.

  (** [r] is the value [v]. *)
  Definition returned (q : sparam) (v r : value) : Prop :=
    match q with
    | SNum _ => exists x y, v = HN (Some x) /\ r = HN (Some y) /\ x == y
    | SCat choices => In r choices /\ heq r v = true
    end.

  (** Choices may instead be spread over the unit interval (as ifBO does). *)
  Definition spread_choices (specs : list (string * sparam)) (custom : list (string * transformer (T := option Q))) : Prop :=
    forall name t, In (name, t) custom ->
      exists choices, In (name, SCat choices) specs /\ cat_to_unit (Qar lnf expf) choices = Ok t.

  (** The encoding of a value: in the unit interval, or the position of a choice. *)
  Definition code (unit : bool) (q : sparam) (y : option Q) : Prop :=
    match q with
    | SNum _ => exists t, y = Some t /\ 0 <= t /\ t <= 1
    | SCat choices =>
        exists t i, y = Some t /\ (0 <= i < Z.of_nat (length choices))%Z /\
                    (if unit then t * inject_Z (Z.of_nat (length choices) - 1) else t) == inject_Z i
    end.
  (** The hyperparameters of a dictionary of parameter objects. *)
  Definition specs_of (ps : list (string * parameter (T := option Q))) (specs : list (string * sparam)) : Prop :=
    Forall2 (fun p q => fst p = fst q /\ describes (snd p) (snd q)) ps specs.

  (** A configuration with legal values for all hyperparameters. *)
  Definition complete (specs : list (string * sparam)) (conf : config) : Prop :=
    forall name q, In (name, q) specs -> exists v, lookup name conf = Some v /\ fits q v.

  (** A number within the range of the codes. *)
  Definition decodable (unit : bool) (q : sparam) (y : option Q) : Prop :=
    match q with
    | SNum _ => exists t, y = Some t /\ 0 <= t /\ t <= 1
    | SCat choices =>
        exists t, y = Some t /\ 0 <= t /\ t <= if unit then 1 else inject_Z (Z.of_nat (length choices) - 1)
    end.
  (** The domain that samplers are told for its column: the unit interval; the positions of the
      choices; the unit interval in as many steps as there are choices. *)
  Definition column_domain (unit : bool) (q : sparam) (d : domain (option Q)) : Prop :=
    d_lower (Qar lnf expf) d = Some 0 /\
    match q with
    | SNum _ => d_upper (Qar lnf expf) d = Some 1 /\ d_card d = None /\ d_log d = None /\ d_cat d = false
    | SCat choices =>
        d_upper (Qar lnf expf) d = Some (if unit then 1 else inject_Z (Z.of_nat (length choices) - 1)) /\
        d_card d = Some (Z.of_nat (length choices)) /\ d_log d = None /\ d_cat d = true
    end.
  (** A value of the hyperparameter, the choices being taken literally. *)
  Definition sensible (q : sparam) (r : value) : Prop :=
    match q with
    | SNum s => exists x, r = HN (Some x) /\ legal lnf expf s x
    | SCat choices => In r choices
    end.
End Spec.

(** Names in alphabetical order. *)
Definition alphabetical (names : list string) : Prop :=
  forall i j a b, (i < j)%nat -> nth_error names i = Some a -> nth_error names j = Some b -> String.ltb a b = true.
