(** C137: architecture parameters keep what they stand for.
    C138: modules are built along the graph. *)
From Verif Require Import Py Prune_model Prune_spec Arch_model Arch_spec Arch_proofs.
From Coq Require Import String Ascii.
Local Open Scope nat_scope.
Local Open Scope list_scope.
Local Notation length := List.length.

(** texts that begin with "S" are graphs *)

Definition ex_repr (s : string) : res nat := match s with String "S"%char _ => Ok (String.length s) | _ => Err ValueError end.
Definition ex_param : param nat := snd (create_from_id ex_repr "S a" new_param).

(** *** C137 *)

(** After any calls the value belongs to the id. *)
Theorem id_and_value_agree : forall V (repr : string -> res V) p s, reachable repr p -> fst (get_id p) = Ok s -> fst (get_value repr p) = repr s.
Proof. exact @param_consistent_. Qed.
Example id_and_value_agree_ex : reachable ex_repr ex_param /\ fst (get_id ex_param) = Ok "S a"%string /\ fst (get_value ex_repr ex_param) = Ok 3.
Proof. split; [apply after_load, at_first|]. split; reflexivity. Qed.

(** An id loads as itself. *)
Theorem load_takes_the_id : forall V (repr : string -> res V) s p, s <> EmptyString -> forall v, repr s = Ok v ->
  exists q, create_from_id repr s p = (Ok tt, q) /\ fst (get_id q) = Ok s /\ fst (get_value repr q) = Ok v /\ default q = default p.
Proof. exact @loaded_. Qed.
Example load_takes_the_id_ex : exists q, create_from_id ex_repr "S bc"%string ex_param = (Ok tt, q) /\ fst (get_id q) = Ok "S bc"%string /\ fst (get_value ex_repr q) = Ok 4.
Proof. eexists. split; [reflexivity|]. split; reflexivity. Qed.

(** What is stored as the id of a parameter gives the same parameter again. *)
Theorem reload_same : forall V (repr : string -> res V) p s v, reachable repr p -> fst (get_id p) = Ok s -> fst (get_value repr p) = Ok v ->
  exists q, create_new_instance repr s = Ok q /\ fst (get_id q) = Ok s /\ fst (get_value repr q) = Ok v /\ same p q = Ok true.
Proof. exact @reload_. Qed.
Example reload_same_ex : reachable ex_repr ex_param /\ exists q, create_new_instance ex_repr "S a" = Ok q /\ same ex_param q = Ok true.
Proof. split; [apply after_load, at_first|]. eexists. split; reflexivity. Qed.

(** A clone of a parameter whose value was read has its id and value. *)
Theorem clone_same : forall V (repr : string -> res V) p s v, reachable repr p -> fst (get_id p) = Ok s -> fst (get_value repr p) = Ok v ->
  let c := clone (snd (get_value repr p)) in fst (get_id c) = Ok s /\ fst (get_value repr c) = Ok v.
Proof. exact @clone_same_. Qed.
Example clone_same_ex : fst (get_id (clone ex_param)) = Ok "S a"%string /\ fst (get_value ex_repr (clone ex_param)) = Ok 3.
Proof. split; reflexivity. Qed.

(** A sampled parameter stands for what the grammar gave, also when it comes from a parameter that stood for
    something else. *)
Theorem sample_takes_the_text : forall V (repr : string -> res V) text p q, text <> EmptyString -> sample repr text p = Ok q ->
  fst (get_id q) = Ok text /\ fst (get_value repr q) = repr text /\ exists v, repr text = Ok v.
Proof. exact @sampled_. Qed.
Example sample_takes_the_text_ex : exists q, sample ex_repr "S bc" ex_param = Ok q /\ fst (get_id q) = Ok "S bc"%string.
Proof. eexists. split; reflexivity. Qed.

(** Parameters are equal exactly when their ids are. *)
Theorem equal_by_id : forall V (p q : param V) a b, fst (get_id p) = Ok a -> fst (get_id q) = Ok b -> (same p q = Ok true <-> a = b) /\ (same p q = Ok false <-> a <> b).
Proof. exact @equal_by_id_. Qed.
Example equal_by_id_ex : same ex_param (clone ex_param) = Ok true /\ same ex_param (snd (create_from_id ex_repr "S b" ex_param)) = Ok false.
Proof. split; reflexivity. Qed.

(** A text that is no graph is refused, but it stays as the id, and a clone has none. *)
Theorem failed_load : forall V (repr : string -> res V) s p e, s <> EmptyString -> repr s = Err e ->
  fst (create_from_id repr s p) = Err e /\ let q := snd (create_from_id repr s p) in fst (get_id q) = Ok s /\ fst (get_id (clone q)) = Err ValueError.
Proof. exact @failed_load_. Qed.
Example failed_load_ex : ex_repr "x" = Err ValueError /\ fst (get_id (snd (create_from_id ex_repr "x" ex_param))) = Ok "x"%string.
Proof. split; reflexivity. Qed.

(** A load that fails does not leave the parameter as it was. *)
Theorem failed_load_keeps_refuted : exists V (repr : string -> res V) p s t, reachable repr p /\ fst (get_id p) = Ok t /\
  fst (create_from_id repr s p) = Err ValueError /\ fst (get_id (snd (create_from_id repr s p))) <> Ok t.
Proof. exact failed_load_keeps_no. Qed.

(** A clone never has the default, whatever the parameter's is. *)
Theorem clone_has_no_default : forall V (p : param V), default (clone p) = None.
Proof. exact @clone_default. Qed.
Theorem clone_keeps_default_refuted : exists V (repr : string -> res V) p d, reachable repr p /\ default p = Some d /\ fst (get_id p) = Ok d /\ default (clone p) <> default p.
Proof. exact clone_keeps_default_no. Qed.
Example clone_has_no_default_ex : default (set_default (Some "S a"%string) ex_param) = Some "S a"%string /\ default (clone (set_default (Some "S a"%string) ex_param)) = None.
Proof. split; reflexivity. Qed.

(** The value of an architecture parameter cannot be deleted, other than its signature says: [None] is always
    refused, and the old value stays. *)
Theorem set_none_refused : forall V (repr : string -> res V) p, set_value repr None p = (Err ValueError, p).
Proof. exact @set_none. Qed.
Theorem set_none_refuted : exists V (repr : string -> res V) p, reachable repr p /\ fst (set_value repr None p) <> Ok tt.
Proof. exact set_none_no. Qed.
Example set_none_refused_ex : fst (get_id (snd (set_value ex_repr None ex_param))) = Ok "S a"%string.
Proof. reflexivity. Qed.

(** *** C138 *)

(** Every edge is given its attributes, from its own data as they were and the finished data of the first edge
    to its source. *)
Theorem build_along_the_graph : forall D R (attributes : D -> option D -> R) (update : D -> R -> D) g order src d,
  NoDup (edges g) -> proper g -> topological g order -> only g (fun n => forall u, ~ edge g u n) src ->
  exists final, build attributes update g order d = Ok final /\ forall u v, edge g u v -> exists before,
    final u v = update (d u v) (attributes (d u v) before) /\
    ((u = src /\ before = None) \/ (u <> src /\ exists q, first_edge g q u /\ before = Some (final q u))).
Proof. exact @build_ok. Qed.
(** four nodes, channels doubled by each operation *)
Example build_along_the_graph_ex : exists final, build (fun (d : Z) before => match before with None => 3 | Some c => 2 * c + d end)%Z (fun _ r => r) (mkGraph [1; 2; 3; 4]%Z [(1, 2); (1, 3); (2, 4); (3, 4)]%Z) [1; 2; 3; 4]%Z (fun u v => u)%Z = Ok final /\
  (final 1 2 = 3 /\ final 1 3 = 3 /\ final 2 4 = 8 /\ final 3 4 = 9)%Z.
Proof. eexists. split; [lazy; reflexivity|]. lazy. repeat split. Qed.

(** A second source with an edge to another node makes it fail. *)
Theorem second_source_fails : forall D R (attributes : D -> option D -> R) (update : D -> R -> D) g order d a b v w,
  topological g order -> (forall u, ~ edge g u a) -> (forall u, ~ edge g u b) -> edge g a w -> edge g b v -> proper g -> a <> b ->
  build attributes update g order d = Err RuntimeError.
Proof. exact @second_source. Qed.
Example second_source_fails_ex : build (fun (d : Z) before => d) (fun _ r => r) (mkGraph [1; 2; 3]%Z [(1, 3); (2, 3)]%Z) [1; 2; 3]%Z (fun u v => u)%Z = Err RuntimeError.
Proof. reflexivity. Qed.

(** A list of structures is never accepted, though the signature has it. *)
Theorem list_never : forall P (single : struct_kind -> res P) ks, exists e, architecture_parameter single (Many ks) = Err e.
Proof. exact @list_never_. Qed.
Theorem list_refuted : exists P (single : struct_kind -> res P) ks, (forall k, In k ks -> exists p, single k = Ok p) /\ ks <> [] /\ forall p, architecture_parameter single (Many ks) <> Ok p.
Proof. exact list_no. Qed.
Example list_never_ex : architecture_parameter (fun _ => Ok 0) (Many [IsDict; IsText]) = Err UnboundLocalError /\ architecture_parameter (fun _ => Ok 0) (Many [IsDict]) = Err TypeError.
Proof. split; reflexivity. Qed.

(** Without set_recursive_attribute there is never a module, though None is its default. *)
Theorem no_attributes_never : forall G M F (compose : res G) (build : F -> G -> res G) (finish : G -> res M) g, compose = Ok g -> api_to_pytorch None compose build finish = Err UnboundLocalError.
Proof. exact @no_attributes. Qed.
Theorem no_attributes_refuted : exists G M F (compose : res G) (build : F -> G -> res G) (finish : G -> res M), (exists g m, compose = Ok g /\ finish g = Ok m) /\ forall m, api_to_pytorch None compose build finish <> Ok m.
Proof. exact no_attributes_no. Qed.
Example no_attributes_never_ex : api_to_pytorch (F := unit) None (Ok 5) (fun _ g => Ok g) (fun g => Ok (g, g)) = Err UnboundLocalError.
Proof. reflexivity. Qed.

(** With it, the module is made of the composed and built graph. *)
Theorem module_of_built_graph : forall G M F f (compose : res G) (build : F -> G -> res G) (finish : G -> res M) m,
  api_to_pytorch (Some f) compose build finish = Ok m <-> exists g b, compose = Ok g /\ build f g = Ok b /\ finish b = Ok m.
Proof. exact @module_of. Qed.
Example module_of_built_graph_ex : api_to_pytorch (Some 1) (Ok 5) (fun f g => Ok (f + g)) (fun g => Ok (g, g)) = Ok (6, 6).
Proof. reflexivity. Qed.

Print Assumptions id_and_value_agree.
Print Assumptions load_takes_the_id.
Print Assumptions reload_same.
Print Assumptions clone_same.
Print Assumptions sample_takes_the_text.
Print Assumptions equal_by_id.
Print Assumptions failed_load.
Print Assumptions failed_load_keeps_refuted.
Print Assumptions clone_has_no_default.
Print Assumptions clone_keeps_default_refuted.
Print Assumptions set_none_refused.
Print Assumptions set_none_refuted.
Print Assumptions build_along_the_graph.
Print Assumptions second_source_fails.
Print Assumptions list_never.
Print Assumptions list_refuted.
Print Assumptions no_attributes_never.
Print Assumptions no_attributes_refuted.
Print Assumptions module_of_built_graph.
