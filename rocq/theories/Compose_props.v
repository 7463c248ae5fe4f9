(** C133: compositions from the texts of parse trees. *)
From Verif Require Import Py Cfg_model Cfg_spec Compose_model Compose_spec Compose_proofs.
From Coq Require Import String.
Local Open Scope string_scope.
Local Open Scope list_scope.
Local Notation str_of := list_ascii_of_string.

(** If topologies are at the nonterminals themselves, except for topologies of primitives only, the
    text of every tree of the grammar becomes the composition that the tree stands for. *)
Theorem tree_composed : forall G topology s t f, plain_symbols G -> derived G s t -> direct topology t f -> nonempty f ->
  means topology t f /\ compose_functions G topology (text t) = Ok f.
Proof. intros G topology s t f P D DI N. split; [exact (direct_means topology t f DI)|exact (composed_p G topology P s t f D DI N)]. Qed.
Print Assumptions tree_composed.

(** A primitive alone always fails. *)
Theorem primitive_alone : forall G topology s t w, plain_symbols G -> derived G s t -> primitive topology t w -> compose_functions G topology (text t) = Err IndexError.
Proof. intros G topology s t w P D PR. exact (alone_p G topology P s t w D PR). Qed.
Print Assumptions primitive_alone.

(** A topology of nothing is refused as an invalid graph. *)
Theorem nothing_refused : forall G topology s t w, plain_symbols G -> derived G s t -> direct topology t (Comp w []) -> compose_functions G topology (text t) = Err ValueError.
Proof. intros G topology s t w P D DI. exact (composed_empty G topology P s t w D DI). Qed.
Print Assumptions nothing_refused.

(** A cell (and a renamed cell) of blocks or operations *)
Definition Gc : grammar :=
  [(str_of "R", [Nt (str_of "S")]);
   (str_of "S", [Tm (str_of "cell"); Nt (str_of "T"); Nt (str_of "P")]);
   (str_of "T", [Nt (str_of "P")]);
   (str_of "T", [Tm (str_of "res"); Nt (str_of "P")]);
   (str_of "T", [Tm (str_of "cell"); Nt (str_of "T"); Nt (str_of "P")]);
   (str_of "P", [Tm (str_of "conv")]);
   (str_of "P", [Tm (str_of "conv3")]);
   (str_of "S", [Tm (str_of "res")])].
Definition topo (w : str) : bool := str_eqb w (str_of "cell") || str_eqb w (str_of "res").
Definition conv := Node (str_of "P") [Leaf (str_of "conv")].
Definition conv3 := Node (str_of "P") [Leaf (str_of "conv3")].
Definition block (w : string) (cs : list tree) (n : string) := Node (str_of n) (Leaf (str_of w) :: cs).
(** (S cell (T cell (T res (P conv3)) (P conv)) (P conv)) *)
Definition t1 := block "cell" [block "cell" [block "res" [conv3] "T"; conv] "T"; conv] "S".
Definition f_conv := Prim (str_of "conv"). Definition f_conv3 := Prim (str_of "conv3").
Definition f1 := Comp (str_of "cell") [Comp (str_of "cell") [Comp (str_of "res") [f_conv3]; f_conv]; f_conv].
(** (R (S cell (T res (P conv3)) (P conv))) *)
Definition t2 := Node (str_of "R") [block "cell" [block "res" [conv3] "T"; conv] "S"].
Definition f2 := Comp (str_of "cell") [Comp (str_of "res") [f_conv3]; f_conv].

Lemma solid_bool s : negb (str_eqb s []) && forallb (fun a => negb (existsb (Ascii.eqb a) [" "; "("; ")"; "009"; "010"]%char)) s = true -> solid s.
Proof.
  intros E. apply andb_prop in E. destruct E as (A & B). split; [intros ->; discriminate|]. intros a I J. rewrite forallb_forall in B. specialize (B a I). apply negb_true_iff in B.
  apply not_true_iff_false in B. apply B, existsb_exists. exists a. split; [exact J|apply Ascii.eqb_refl].
Qed.
Example Gc_plain : plain_symbols Gc.
Proof.
  intros n rhs I. cbn [Gc In] in I. repeat (destruct I as [I|I]; [injection I as <- <-; split; [apply solid_bool; lazy; reflexivity|]; repeat (apply Forall_cons; [first [split; [apply solid_bool; lazy; reflexivity|lazy; intuition discriminate]|lazy; tauto]|]); apply Forall_nil|]). destruct I.
Qed.
Example t1_derived : derived Gc (str_of "S") t1.
Proof. split; [reflexivity|]. lazy. repeat split; tauto. Qed.
Lemma conv_prim : primitive topo conv (str_of "conv"). Proof. apply prim_unit, prim_leaf. reflexivity. Qed.
Lemma conv3_prim : primitive topo conv3 (str_of "conv3"). Proof. apply prim_unit, prim_leaf. reflexivity. Qed.
Example t1_direct : direct topo t1 f1 /\ nonempty f1.
Proof.
  split; [|exact I]. apply direct_comp; [reflexivity|]. repeat apply Forall2_cons; [|apply direct_prim, conv_prim|apply Forall2_nil]. apply direct_comp; [reflexivity|].
  repeat apply Forall2_cons; [|apply direct_prim, conv_prim|apply Forall2_nil]. apply direct_comp; [reflexivity|]. repeat apply Forall2_cons; [apply direct_prim, conv3_prim|apply Forall2_nil].
Qed.
Example t1_composed : text t1 = str_of "(S cell (T cell (T res (P conv3)) (P conv)) (P conv))" /\ compose_functions Gc topo (text t1) = Ok f1.
Proof. split; lazy; reflexivity. Qed.
(** A flat topology below other nonterminals *)
Example flat_ex : direct topo (Node (str_of "R") [block "res" [conv; conv] "S"]) (Comp (str_of "res") [f_conv; f_conv]).
Proof. apply direct_flat, flat_unit. apply (flat_comp topo (str_of "S") (str_of "res") [conv; conv] [str_of "conv"; str_of "conv"]); [reflexivity|]. repeat apply Forall2_cons; [apply conv_prim|apply conv_prim|apply Forall2_nil]. Qed.
(** (T (P conv)) *)
Example alone_ex : derived Gc (str_of "T") (Node (str_of "T") [conv]) /\ primitive topo (Node (str_of "T") [conv]) (str_of "conv").
Proof. split; [split; [reflexivity|lazy; repeat split; tauto]|]. apply prim_unit, conv_prim. Qed.

(** (S res) *)
Example nothing_ex : derived Gc (str_of "S") (block "res" [] "S") /\ direct topo (block "res" [] "S") (Comp (str_of "res") []).
Proof. split; [split; [reflexivity|lazy; repeat split; tauto]|]. apply direct_comp; [reflexivity|apply Forall2_nil]. Qed.

(** A nonterminal that just stands for another one, above nested topologies: the inner topology takes
    the arguments of the outer one, without any error. *)
Theorem renamed_nonterminal_refuted : exists G topology s t f g, plain_symbols G /\ derived G s t /\ means topology t f /\ nonempty f /\
  compose_functions G topology (text t) = Ok g /\ g <> f.
Proof.
  exists Gc, topo, (str_of "R"), t2, f2, (Comp (str_of "cell") [Comp (str_of "res") [f_conv3; f_conv]]).
  split; [exact Gc_plain|]. split; [split; [reflexivity|lazy; repeat split; tauto]|]. split; [|split; [exact I|split; [lazy; reflexivity|discriminate]]].
  apply means_unit, means_comp; [reflexivity|]. repeat apply Forall2_cons; [|apply primitive_means, conv_prim|apply Forall2_nil].
  apply means_comp; [reflexivity|]. repeat apply Forall2_cons; [apply primitive_means, conv3_prim|apply Forall2_nil].
Qed.
Print Assumptions renamed_nonterminal_refuted.
