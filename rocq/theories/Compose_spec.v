(** What a parse tree stands for, as a composition. *)
From Verif Require Import Py Cfg_model Cfg_spec Compose_model.
Open Scope list_scope.

(** Symbols without blanks and brackets, that are either terminals or have a production *)
Definition plain_symbols (G : grammar) : Prop :=
  forall n rhs, In (n, rhs) G -> solid n /\ Forall (fun s => match s with Tm w => solid w /\ ~ In w (map fst G) | Nt m => In m (map fst G) end) rhs.

Section Meaning.
  Variable topology : str -> bool.
  (** A primitive; a nonterminal with just one thing stands for it; a topology with what follows it is
      the topology applied to it. *)
  Inductive means : tree -> fn -> Prop :=
  | means_prim w : topology w = false -> means (Leaf w) (Prim w)
  | means_unit n c f : means c f -> means (Node n [c]) f
  | means_comp n t cs fs : topology t = true -> Forall2 means cs fs -> means (Node n (Leaf t :: cs)) (Comp t fs).
  (** A primitive, below nonterminals *)
  Inductive primitive : tree -> str -> Prop :=
  | prim_leaf w : topology w = false -> primitive (Leaf w) w
  | prim_unit n c w : primitive c w -> primitive (Node n [c]) w.
  (** A topology of primitives only, below nonterminals *)
  Inductive flat : tree -> fn -> Prop :=
  | flat_comp n t cs ws : topology t = true -> Forall2 primitive cs ws -> flat (Node n (Leaf t :: cs)) (Comp t (map Prim ws))
  | flat_unit n c f : flat c f -> flat (Node n [c]) f.
  (** Topologies are at the nonterminals themselves, except for topologies of primitives only. *)
  Inductive direct : tree -> fn -> Prop :=
  | direct_prim c w : primitive c w -> direct c (Prim w)
  | direct_flat c f : flat c f -> direct c f
  | direct_comp n t cs fs : topology t = true -> Forall2 direct cs fs -> direct (Node n (Leaf t :: cs)) (Comp t fs).
  (** A topology with something *)
  Definition nonempty (f : fn) : Prop := match f with Comp _ (_ :: _) => True | _ => False end.
End Meaning.
