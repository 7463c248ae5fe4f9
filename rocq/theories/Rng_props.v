(** C128: random numbers of several workers.  C129: stored snapshots.  C130: the list of searchers. *)
From Coq Require Import String Permutation.
From Verif Require Import Py Rng_model Rng_spec Rng_proofs.
Local Open Scope nat_scope.
Local Open Scope string_scope.
Local Open Scope list_scope.
Local Notation length := List.length.

(** ** C128 *)

(** A snapshot set on a machine with the same equipment puts every generator where it was. *)
Theorem capture_restore : forall m m', alike m m' -> set_global (new_capture m) m' = Ok m.
Proof. exact restore. Qed.
Print Assumptions capture_restore.

(** Workers on machines with the same equipment, whatever each of them drew before, are asked in turn
    through the shared directory: together they draw exactly what one process would draw. *)
Theorem turns_as_one : forall A (ask : machine -> A * machine) ms d m0,
  (forall x, alike x (snd (ask x)) \/ g_torch x = None) -> holds d m0 -> Forall (alike m0) ms ->
  turns ask d ms = Ok (draws ask (length ms) m0).
Proof. intros A ask ms d m0. exact (turns_p ask ms d m0). Qed.
Print Assumptions turns_as_one.

(** A machine without CUDA takes over the other generators. *)
Theorem without_cuda : forall m m', g_torch m <> None -> g_torch m' <> None -> g_cuda m' = None ->
  set_global (new_capture m) m' = Ok (mkMachine (g_np m) (g_py m) (g_torch m) None).
Proof. exact restore_cpu. Qed.
Print Assumptions without_cuda.

(** A snapshot of more devices than the worker has cannot be set: no configuration is ever asked
    for, whatever the optimizer, and the directory stays as it is. *)
Theorem more_devices : forall A (ask : machine -> A * machine) d m m' x y,
  holds d m -> g_torch m <> None -> g_torch m' <> None -> g_cuda m = Some x -> g_cuda m' = Some y -> length y < length x ->
  turn ask d m' = Err IndexError.
Proof.
  intros A ask d m m' x y H T T' C C' L. unfold turn. unfold holds in H. rewrite H. cbn [bind]. rewrite (restore_missing m m' x y T T' C C' L). reflexivity.
Qed.
Print Assumptions more_devices.

Definition np0 := mkNp "MT19937" [1; 2]%Z 624 0 (FZ 0).
Definition py0 := mkPy 3 [4; 5; 2]%Z None.
Definition box t c := mkMachine np0 py0 (Some t) c.
Definition files_of (m : machine) : seed_files :=
  match write (new_capture m) (mkSeedFiles None None None None None) with Ok d => d | Err _ => mkSeedFiles None None None None None end.
(** The number drawn from the last device, which moves on by one *)
Definition cuda_ask (m : machine) : Z * machine :=
  match g_cuda m with
  | Some devs => match rev devs with
                 | (z :: r) :: ds => (z, mkMachine (g_np m) (g_py m) (g_torch m) (Some (rev ds ++ [(z + 1)%Z :: r])))
                 | _ => (0%Z, m) end
  | None => (0%Z, m)
  end.
Definition py_ask (m : machine) : Z * machine :=
  match py_keys (g_py m) with
  | z :: r => (z, mkMachine (g_np m) (mkPy 3 (z * 3 mod 101 :: r)%Z None) (g_torch m) (g_cuda m))
  | [] => (0%Z, m)
  end.

(** A worker with fewer devices joins a run and dies on its first question. *)
Theorem more_devices_refuted : exists m m', g_torch m <> None /\ g_torch m' <> None /\ turn py_ask (files_of m) m' = Err IndexError.
Proof. exists (box [1]%Z (Some [[1]; [2]]%Z)), (box [1]%Z (Some [[1]]%Z)). split; [discriminate|]. split; [discriminate|reflexivity]. Qed.
Print Assumptions more_devices_refuted.

(** A worker with more devices keeps the state of its own: what is drawn depends on which worker asks. *)
Theorem fewer_devices_refuted : exists m a b ra rb, turn cuda_ask (files_of m) a = Ok ra /\ turn cuda_ask (files_of m) b = Ok rb /\ fst (fst ra) <> fst (fst rb).
Proof.
  exists (box [1]%Z (Some [[1]]%Z)), (box [1]%Z (Some [[1]; [7]]%Z)), (box [1]%Z (Some [[1]; [8]]%Z)). eexists _, _.
  split; [lazy; reflexivity|]. split; [lazy; reflexivity|]. cbn. discriminate.
Qed.
Print Assumptions fewer_devices_refuted.

Example alike_ex : alike (box [1]%Z (Some [[1]]%Z)) (box [9]%Z (Some [[8]]%Z)) /\ box [1]%Z (Some [[1]]%Z) <> box [9]%Z (Some [[8]]%Z).
Proof. split; [repeat split; discriminate|discriminate]. Qed.
Example holds_ex : holds (files_of (box [1]%Z None)) (box [1]%Z None).
Proof. lazy. reflexivity. Qed.
Example py_ask_alike : forall x, alike x (snd (py_ask x)) \/ g_torch x = None.
Proof.
  intros [n [v k g] [t|] c]; [left|right; reflexivity]. unfold py_ask. cbn [g_py py_keys]. unfold alike. destruct k, c; cbn [snd g_torch g_cuda]; repeat split; discriminate.
Qed.
(** Three workers, each with other numbers in its generators *)
Example turns_ex : turns py_ask (files_of (box [1]%Z None)) [mkMachine np0 (mkPy 3 [50]%Z None) (Some [8]%Z) None; box [2]%Z None; box [3]%Z None] = Ok [4; 12; 36]%Z.
Proof. lazy. reflexivity. Qed.
Example turns_same : Forall (alike (box [1]%Z None)) [mkMachine np0 (mkPy 3 [50]%Z None) (Some [8]%Z) None; box [2]%Z None; box [3]%Z None].
Proof. repeat first [apply Forall_cons|apply Forall_nil]; repeat split; discriminate. Qed.

(** ** C129 *)

(** What is written is read again, if no older file of torch is in the directory. *)
Theorem seed_written_read : forall s d, (s_torch s <> None \/ f_torch d = None) -> (s_cuda s <> None \/ f_cuda d = None) -> s_np s <> None -> s_py s <> None ->
  exists d', write s d = Ok d' /\ read d' = Ok s.
Proof. exact write_read. Qed.
Print Assumptions seed_written_read.

(** In general a missing part of torch is filled in from the older file. *)
Theorem seed_kept : forall s d, s_np s <> None -> s_py s <> None -> exists d' s', write s d = Ok d' /\ read d' = Ok s' /\ s_np s' = s_np s /\ s_py s' = s_py s /\
  s_torch s' = match s_torch s with None => f_torch d | t => t end /\ s_cuda s' = match s_cuda s with None => f_cuda d | c => c end.
Proof. exact write_keeps. Qed.
Print Assumptions seed_kept.

(** So a snapshot need not come back as it was written: an older state of CUDA stays. *)
Theorem seed_stale_refuted : exists s d d', s_np s <> None /\ s_py s <> None /\ write s d = Ok d' /\ read d' <> Ok s.
Proof.
  exists (new_capture (box [1]%Z None)), (files_of (box [1]%Z (Some [[5]]%Z))). eexists. split; [discriminate|]. split; [discriminate|]. split; [lazy; reflexivity|]. lazy. discriminate.
Qed.
Print Assumptions seed_stale_refuted.

(** Snapshots compare equal exactly when they are the same, if both are of as many devices. *)
Theorem snapshots_equal : forall a b, proper_snap a -> proper_snap b -> (forall x y, s_cuda a = Some x -> s_cuda b = Some y -> length x = length y) -> (snap_eqb a b = true <-> a = b).
Proof. exact snap_eq_p. Qed.
Print Assumptions snapshots_equal.

(** With different numbers of devices, different snapshots are equal. *)
Theorem snapshots_equal_refuted : exists a b, proper_snap a /\ proper_snap b /\ a <> b /\ snap_eqb a b = true.
Proof.
  exists (new_capture (box [1]%Z (Some [[1]]%Z))), (new_capture (box [1]%Z (Some [[1]; [2]]%Z))).
  split; [split; intros ? [= <-]; discriminate|]. split; [split; intros ? [= <-]; discriminate|]. split; [discriminate|reflexivity].
Qed.
Print Assumptions snapshots_equal_refuted.

Example seed_files_ex : exists d', write (new_capture (box [1]%Z None)) (mkSeedFiles None None None None None) = Ok d' /\ read d' = Ok (new_capture (box [1]%Z None)).
Proof. eexists. split; lazy; reflexivity. Qed.
Example snapshots_ex : snap_eqb (new_capture (box [1]%Z None)) (new_capture (box [2]%Z None)) = false /\ snap_eqb (new_capture (box [1]%Z None)) (new_capture (box [1]%Z None)) = true.
Proof. split; reflexivity. Qed.
Example proper_ex : proper_snap (new_capture (box [1]%Z None)).
Proof. split; intros ? [= <-]; discriminate. Qed.

(** ** C130 *)

(** The searchers listed are the names of the yaml files. *)
Theorem searchers_listed : forall l n, In n (get_searchers l) <-> exists f, In f l /\ q_suffix f = ".yaml" /\ q_stem f = n.
Proof. exact searchers_p. Qed.
Print Assumptions searchers_listed.

(** The algorithms are those that some file names, each once. *)
Theorem algorithms_listed : forall l, NoDup (get_available_algorithms l) /\ (forall a, In a (get_available_algorithms l) <-> a <> "" /\ exists f, In f l /\ q_suffix f = ".yaml" /\ q_strategy f = Some a).
Proof. exact algorithms_p. Qed.
Print Assumptions algorithms_listed.

(** The searchers of an algorithm are those that name it. *)
Theorem searchers_of_algorithm : forall l a n, In n (get_searcher_from_algorithm l a) <-> exists f, In f l /\ q_suffix f = ".yaml" /\ q_strategy f = Some a /\ q_stem f = n.
Proof. exact from_algorithm_p. Qed.
Print Assumptions searchers_of_algorithm.

(** The text of a searcher is that of its file, if no other name begins with its name. *)
Theorem kwargs_exact : forall l f, In f l -> q_suffix f = ".yaml" -> (forall g, In g l -> q_suffix g = ".yaml" -> prefix (q_stem f) (q_stem g) = true -> g = f) ->
  get_searcher_kwargs l (q_stem f) = Ok (q_text f).
Proof. exact kwargs_exact_p. Qed.
Print Assumptions kwargs_exact.

(** If one does, there is an order of the directory in which that one's text is given. *)
Theorem kwargs_other : forall l f g, In g l -> q_suffix g = ".yaml" -> prefix (q_stem f) (q_stem g) = true -> exists l', Permutation l l' /\ get_searcher_kwargs l' (q_stem f) = Ok (q_text g).
Proof. exact kwargs_wrong_p. Qed.
Print Assumptions kwargs_other.

Definition shipped : list searcher_file :=
  [mkFile "asha_prior" ".yaml" (Some "asha_prior") "strategy: asha_prior"; mkFile "asha" ".yaml" (Some "asha") "strategy: asha"; mkFile "ifbo" ".yaml" (Some "ifbo") "strategy: ifbo";
   mkFile "priorband" ".yaml" (Some "priorband") "strategy: priorband"; mkFile "priorband_bo" ".yaml" (Some "priorband") "strategy: priorband model_based: true"; mkFile "__init__" ".py" None ""].

(** The shipped files: asked for asha, the text of asha_prior. *)
Theorem kwargs_other_refuted : exists l f, In f l /\ q_stem f = "asha" /\ q_suffix f = ".yaml" /\ NoDup (map q_stem l) /\ get_searcher_kwargs l "asha" <> Ok (q_text f).
Proof.
  exists shipped, (mkFile "asha" ".yaml" (Some "asha") "strategy: asha"). split; [right; left; reflexivity|]. do 2 (split; [reflexivity|]). split; [|lazy; discriminate].
  repeat first [apply NoDup_nil|apply NoDup_cons; [cbn; intuition discriminate|]].
Qed.
Print Assumptions kwargs_other_refuted.

(** A name with which no searcher's name begins is refused. *)
Theorem kwargs_unknown : forall l n, (forall f, In f l -> q_suffix f = ".yaml" -> prefix n (q_stem f) = false) -> get_searcher_kwargs l n = Err FileNotFoundError.
Proof. exact kwargs_missing_p. Qed.
Print Assumptions kwargs_unknown.

(** But other names that are no searcher's are answered. *)
Theorem kwargs_unknown_refuted : exists l n t, ~ In n (get_searchers l) /\ get_searcher_kwargs l n = Ok t.
Proof. exists shipped, "if", "strategy: ifbo". split; [cbn; intuition discriminate|reflexivity]. Qed.
Print Assumptions kwargs_unknown_refuted.

Example searchers_ex : get_searchers shipped = ["asha_prior"; "asha"; "ifbo"; "priorband"; "priorband_bo"] /\ get_searcher_from_algorithm shipped "priorband" = ["priorband"; "priorband_bo"]
  /\ get_available_algorithms shipped = ["asha_prior"; "asha"; "ifbo"; "priorband"] /\ get_searcher_kwargs shipped "ifbo" = Ok "strategy: ifbo" /\ get_searcher_kwargs shipped "bohb" = Err FileNotFoundError.
Proof. repeat split. Qed.
