(** Vocabulary for plots. *)
From Coq Require Import String Permutation.
From Verif Require Import Py Trial_model Limit_spec Status_model Status_spec Space_model Plot_model.
Local Open Scope nat_scope.
Local Open Scope list_scope.
Local Notation length := List.length.

(** [float] of a float is that float *)
Definition float_id (pyfloat : pyval -> res fl) : Prop := forall f, pyfloat (VFloat f) = Ok f.

(** The identifiers are numbers (as of all optimizers without fidelities). *)
Definition numbered (ts : list trial) : Prop := forall t, In t ts -> exists n, t_id t = py_str_nat n.
Definition before (a b : trial) : Prop := exists m n, t_id a = py_str_nat m /\ t_id b = py_str_nat n /\ m < n.
(** [ds]: the evaluated ones of the trials, in the order of their numbers *)
Definition in_order (ts ds : list trial) : Prop :=
  (forall t, In t ds <-> In t ts /\ has_report t) /\ ForallOrdPairs before ds.

Definition all_succeeded (ts : list trial) : Prop := forall t, In t ts -> has_report t -> exists l, succeeded t l.
Definition no_nan_loss (ts : list trial) : Prop := forall t, In t ts -> ~ succeeded t FNaN.

(** [l] is the least loss of these trials *)
Definition least_loss (ds : list trial) (l : fl) : Prop :=
  (exists t, In t ds /\ succeeded t l) /\ forall t l', In t ds -> succeeded t l' -> fl_le l l'.

(** The curve of the evaluations [ds]: over 1, 2, 3, ... the least loss until then, and at the
    right end (position infinity) the last value again. *)
Definition curve_of (ds : list trial) (c : column) : Prop :=
  length c = S (length ds) /\
  (forall k, k < length ds -> exists v, nth_error c k = Some (fl_of_Z (Z.of_nat (S k)), v) /\ least_loss (firstn (S k) ds) v) /\
  exists v, nth_error c (length ds) = Some (FPInf, v) /\ least_loss ds v.

(** The trial's entry in info_dict under this key *)
Definition info_value (pyfloat : pyval -> res fl) (key : string) (t : trial) (c : fl) : Prop :=
  exists r i v, t_report t = Some r /\ r_reported_as r = RSuccess /\ lookup "info_dict" (r_extra r) = Some (VDict i) /\
    lookup key i = Some v /\ pyfloat v = Ok c.

(** The entry of info_dict is this float. *)
Definition float_entry (key : string) (t : trial) (c : fl) : Prop :=
  exists r i, t_report t = Some r /\ r_reported_as r = RSuccess /\ lookup "info_dict"%string (r_extra r) = Some (VDict i) /\ lookup key i = Some (VFloat c).

(** The trial whose identifier is least as a text, among the evaluated ones *)
Definition text_first (ts : list trial) (t : trial) : Prop :=
  In t ts /\ has_report t /\ forall t', In t' ts -> has_report t' -> String.ltb (t_id t') (t_id t) = false.

(** Positions and heights strictly increasing in position, nothing missing, all finite positions *)
Definition proper_series (c : column) : Prop :=
  c <> [] /\ ForallOrdPairs (fun a b => fl_lt (fst a) (fst b)) c /\
  forall x v, In (x, v) c -> v <> FNaN /\ exists z, x = FZ z.
(** A seed's evaluations: their positions (sums of the costs so far) and incumbents *)
Fixpoint sums (acc : fl) (l : list fl) : list fl :=
  match l with [] => [] | x :: l' => fl_add acc x :: sums (fl_add acc x) l' end.
Definition series (s : list fl * list fl) : column := combine (sums (FZ 0) (snd s)) (fst s).

(** The height of the series' first point at [x] or later; of its last point if there is none *)
Definition next_height (c : column) (x v : fl) : Prop :=
  (exists l y r, c = l ++ (y, v) :: r /\ fl_le x y /\ Forall (fun p => fl_lt (fst p) x) l) \/
  (exists l y, c = l ++ [(y, v)] /\ Forall (fun p => fl_lt (fst p) x) c).
(** The height of the series' last point at [x] or before: the incumbent at [x] *)
Definition incumbent_at (c : column) (x v : fl) : Prop :=
  exists l y r, c = l ++ (y, v) :: r /\ fl_le y x /\ Forall (fun p => fl_lt x (fst p)) r.
(** All seeds have the same number of evaluations. *)
Definition equal_numbers (seeds : list (list fl * list fl)) : Prop :=
  forall s s', In s seeds -> In s' seeds -> length (fst s) = length (fst s').
(** After every evaluation the least loss until then *)
Definition minima (ds : list trial) (incs : list fl) : Prop :=
  length incs = length ds /\ forall k, k < length ds -> exists v, nth_error incs k = Some v /\ least_loss (firstn (S k) ds) v.

(** The greatest of some numbers, none of which is NaN *)
Definition greatest (l : list fl) (m : fl) : Prop := In m l /\ ~ In FNaN l /\ forall x, In x l -> fl_le x m.

Section Figure.
  Variables (pyfloat : pyval -> res fl) (divide : fl -> fl -> fl).
  (** The runs of a benchmark and an algorithm, seeds in alphabetical order *)
  Definition runs_of (o : options) (f : files) (b a : string) (seeds : list (list trial)) : Prop :=
    if o_scientific o then
      exists algorithms runs named, lookup b (f_tree f) = Some algorithms /\ lookup a algorithms = Some runs /\
        Permutation named runs /\ ForallOrdPairs (fun x y => String.ltb (fst x) (fst y) = true) named /\ seeds = map snd named
    else seeds = [f_run f].
  (** The positions are divided by the greatest fidelity, or kept. *)
  Definition scaling (o : options) (maxima : list fl) (scale : fl -> fl) : Prop :=
    (o_key o = Some "fidelity"%string /\ exists m, greatest maxima m /\ scale = fun x => divide x m) \/
    (o_key o <> Some "fidelity"%string /\ scale = fun x => x).
  (** All runs of a benchmark and an algorithm can be read, and their curves are [cs]. *)
  Definition drawable (o : options) (f : files) (b a : string) (cs : list column) : Prop :=
    exists seeds data scale, runs_of o f b a seeds /\
      Forall2 (fun ts d => process_seed pyfloat (o_key o) (o_continuations o) (o_workers o) ts = Ok d) seeds data /\
      scaling o (map snd data) scale /\ curves scale (o_range o) (map fst data) = Ok cs.
End Figure.
