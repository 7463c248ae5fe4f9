(** Vocabulary for pools of candidates. *)
From Verif Require Import Py.
From Coq Require Import Permutation.
Local Open Scope nat_scope.
Local Open Scope list_scope.
Local Notation length := List.length.

(** [x] is among the [n] best: fewer than [n] have a smaller loss. *)
Definition among_best {X} (n : nat) (data : list (X * Z)) (x : X) : Prop := exists y, In (x, y) data /\ length (filter (fun d => Z.ltb (snd d) y) data) < n.
(** what numpy promises of argpartition *)
Definition partitions (argpartition : list Z -> nat -> list nat) : Prop := forall l k, k < length l ->
  Permutation (argpartition l k) (seq 0 (length l)) /\
  forall i j, In i (firstn k (argpartition l k)) -> In j (skipn k (argpartition l k)) -> (nth i l 0 <= nth j l 0)%Z.
(** the indices of [n] greatest values *)
Definition greatest (l : list Z) (n : nat) (is : list nat) : Prop := length is = n /\ NoDup is /\ (forall i, In i is -> i < length l) /\
  forall i j, In i is -> j < length l -> ~ In j is -> (nth j l 0 <= nth i l 0)%Z.
(** what torch promises of topk *)
Definition selects (topk : list Z -> nat -> list nat) : Prop := forall l n, n <= length l -> greatest l n (topk l n).
(** the number of different values *)
Definition different (l : list Z) : nat := length (nodup Z.eq_dec l).
