(** Vocabulary about snapshots of random number generators, independent of how they are taken. *)
From Coq Require Import String.
From Verif Require Import Py Rng_model.
Local Open Scope nat_scope.
Local Open Scope list_scope.
Local Notation length := List.length.

(** Two machines have the same equipment: torch, and the same number of CUDA devices, if any. *)
Definition alike (a b : machine) : Prop :=
  g_torch a <> None /\ g_torch b <> None /\
  match g_cuda a, g_cuda b with Some x, Some y => length x = length y | None, None => True | _, _ => False end.
(** The directory holds the state of [m]. *)
Definition holds (d : seed_files) (m : machine) : Prop := read d = Ok (new_capture m).
(** A single process that is asked [n] times *)
Fixpoint draws {A} (ask : machine -> A * machine) (n : nat) (m : machine) : list A :=
  match n with O => [] | S k => fst (ask m) :: draws ask k (snd (ask m)) end.
(** A sequence of questions to processes on [ms], through the directory *)
Fixpoint turns {A} (ask : machine -> A * machine) (d : seed_files) (ms : list machine) : res (list A) :=
  match ms with
  | [] => Ok []
  | m :: ms' => bind (turn ask d m) (fun r => bind (turns ask (snd (fst r)) ms') (fun l => Ok (fst (fst r) :: l)))
  end.

(** no NaN among the cached normal numbers *)
Definition proper_snap (s : snapshot) : Prop :=
  (forall n, s_np s = Some n -> np_gauss n <> FNaN) /\ (forall p, s_py s = Some p -> py_gauss p <> Some FNaN).
